(** Prop_CNames: C40 (range checks), C41 (choice names), C54 (identifiers). *)
From Coq Require Import Ascii DecimalString Permutation Floats.SpecFloat.
From Verif Require Import Base PyNum Conversion Signal Formats Message LayoutSpec CodecSpec DictLemmas NodeProofs GenItems Examples Prop_Conv CSource CNames.

(** ** C40 *)
Lemma linear_to_raw scale offset ch c s o r :
  equals_int scale s -> equals_int offset o -> s <> 0 -> factory scale offset ch false = Ok c ->
  scaled_to_raw c (VNum (NInt (r * s + o))) = Ok (NInt r).
Proof.
  intros HS HO NZ H. destruct ch as [ch|].
  - destruct (factory scale offset None false) as [c0|e] eqn:E.
    + destruct (C16_raw_round_trip scale offset c0 s o r false HS HO NZ E) as [_ R]. unfold factory in H, E.
      destruct (num_factory scale offset false) as [n|]; [|discriminate]. cbn in H, E. apply Ok_inj in H, E. subst. exact R.
    + unfold factory in H, E. destruct (num_factory scale offset false) as [n|]; [discriminate|]. cbn in H. discriminate.
  - now apply (C16_raw_round_trip scale offset c s o r false).
Qed.

(** A limit lies on the grid of physical values, or is absent. *)
Definition on_grid (s o : Z) (limit : option num) : Prop :=
  match limit with None => True | Some v => exists r, v = NInt (r * s + o) end.
Definition at_least (limit : option num) (x : Z) : Prop :=
  match limit with Some (NInt v) => v <= x | _ => True end.
Definition at_most (limit : option num) (x : Z) : Prop :=
  match limit with Some (NInt v) => x <= v | _ => True end.

(** C40: integer signals with positive integral scale and integral offset and limits on the grid: the check
    accepts a value of the member's type exactly if its physical value is within the given limits and, on
    the sides without limit, it is in the range of the signal's bits.  An upper limit below all values of an
    unsigned member is excluded. *)
Theorem C40_is_in_range sg scale offset ch s o raw :
  factory scale offset ch false = Ok (s_conv sg) -> equals_int scale s -> equals_int offset o -> 0 < s ->
  0 < s_length sg <= 64 ->
  on_grid s o (s_min sg) -> on_grid s o (s_max sg) ->
  (s_signed sg = false -> forall v, s_max sg = Some (NInt v) -> o <= v) ->
  ctype_min sg <= raw <= ctype_max sg ->
  exists b, is_in_range sg raw = Ok b /\
    (b = true <->
     at_least (s_min sg) (raw * s + o) /\ (s_min sg = None -> can_raw_min sg <= raw) /\
     at_most (s_max sg) (raw * s + o) /\ (s_max sg = None -> raw <= can_raw_max sg)).
Proof.
  intros HF HS HO POS HL GMIN GMAX NONNEG RNG.
  assert (LO : exists lo, lower_bound sg = Ok lo /\ (forall z, lo = Some z -> ctype_min sg < z) /\
     ((match lo with Some z => z <= raw | None => True end) <-> at_least (s_min sg) (raw * s + o) /\ (s_min sg = None -> can_raw_min sg <= raw))).
  { unfold lower_bound. destruct (s_min sg) as [v|].
    - destruct GMIN as [r ->]. rewrite (linear_to_raw scale offset ch _ s o r); auto; [|lia]. cbn [bind py_round].
      eexists. split; [reflexivity|]. split; [intros z; destruct (Z.ltb_spec (ctype_min sg) r); [intros [= <-]; lia|discriminate]|].
      cbn [at_least]. destruct (Z.ltb_spec (ctype_min sg) r).
      + split; [intros; split; [nia|discriminate]|]. intros [H1 _]. nia.
      + split; [intros _; split; [nia|discriminate]|auto].
    - cbn [bind]. destruct (Z.ltb_spec (ctype_min sg) (can_raw_min sg)).
      + cbn [py_round bind]. destruct (Z.ltb_spec (ctype_min sg) (can_raw_min sg)); [|lia]. eexists. split; [reflexivity|].
        split; [intros z [= <-]; lia|]. cbn [at_least]. tauto.
      + eexists. split; [reflexivity|]. split; [discriminate|]. cbn [at_least]. split; [intros; split; [auto|intros _; lia]|auto]. }
  assert (HI : exists hi, upper_bound sg = Ok hi /\ (forall z, hi = Some z -> s_signed sg = false -> 0 <= z) /\
     ((match hi with Some z => raw <= z | None => True end) <-> at_most (s_max sg) (raw * s + o) /\ (s_max sg = None -> raw <= can_raw_max sg))).
  { unfold upper_bound. destruct (s_max sg) as [v|].
    - destruct GMAX as [r ->]. rewrite (linear_to_raw scale offset ch _ s o r); auto; [|lia]. cbn [bind py_round].
      eexists. split; [reflexivity|]. split.
      { intros z Hz U. specialize (NONNEG U _ eq_refl). destruct (r <? ctype_max sg); [|discriminate]. injection Hz as <-. nia. }
      cbn [at_most]. destruct (Z.ltb_spec r (ctype_max sg)).
      + split; [intros; split; [nia|discriminate]|]. intros [H1 _]. nia.
      + split; [intros _; split; [nia|discriminate]|auto].
    - cbn [bind]. destruct (Z.ltb_spec (can_raw_max sg) (ctype_max sg)).
      + cbn [py_round bind]. destruct (Z.ltb_spec (can_raw_max sg) (ctype_max sg)); [|lia]. eexists. split; [reflexivity|].
        split; [|cbn [at_most]; tauto]. intros z [= <-] U. unfold can_raw_max. rewrite U. lia.
      + eexists. split; [reflexivity|]. split; [discriminate|]. cbn [at_most]. split; [intros; split; [auto|intros _; lia]|auto]. }
  destruct LO as (lo & L1 & L2 & L3), HI as (hi & H1 & H2 & H3).
  unfold is_in_range. rewrite L1, H1. cbn [bind]. eexists. split; [reflexivity|].
  assert (LIT : forall z, (s_signed sg = false -> 0 <= z) -> c_literal sg z = z).
  { intros z Hz. unfold c_literal. destruct (s_signed sg); [reflexivity|]. destruct (Z.ltb_spec z 0); [specialize (Hz eq_refl); lia|reflexivity]. }
  rewrite andb_true_iff.
  assert (EL : (match lo with Some z => c_literal sg z <=? raw | None => true end) = true <-> match lo with Some z => z <= raw | None => True end).
  { destruct lo as [z|]; [|tauto]. rewrite LIT; [apply Z.leb_le|]. intros U. specialize (L2 _ eq_refl). unfold ctype_min in L2. rewrite U in L2. lia. }
  assert (EH : (match hi with Some z => raw <=? c_literal sg z | None => true end) = true <-> match hi with Some z => raw <= z | None => True end).
  { destruct hi as [z|]; [|tauto]. rewrite LIT; [apply Z.leb_le|]. eauto. }
  rewrite EL, EH, L3, H3. tauto.
Qed.

Definition limited (scale offset : Z) (len : Z) (signed : bool) (mn mx : option num) : signal :=
  mkSignal "S" 0 len false signed (conv_of (NInt scale) (NInt offset) None false) mn mx false None None.

Example C40_example :
  let s := limited 2 (-40) 7 false (Some (NInt (-20))) (Some (NInt 60)) in
  factory (NInt 2) (NInt (-40)) None false = Ok (s_conv s) /\ on_grid 2 (-40) (s_min s) /\ on_grid 2 (-40) (s_max s) /\
  map (is_in_range s) [9; 10; 50; 51; 255] = [Ok false; Ok true; Ok true; Ok false; Ok false].
Proof.
  cbv zeta. split; [vm_compute; reflexivity|]. split; [exists 10; reflexivity|]. split; [exists 50; reflexivity|]. vm_compute. reflexivity.
Qed.

(** A negative scale: the limits are not exchanged and every value is rejected. *)
Theorem C40_negative_scale_refuted :
  let s := limited (-1) 0 8 true (Some (NInt (-10))) (Some (NInt 10)) in
  forall raw, is_in_range s raw = Ok false.
Proof.
  cbv zeta. intros raw. unfold is_in_range.
  replace (lower_bound _) with (Ok (Some 10)) by (vm_compute; reflexivity).
  replace (upper_bound _) with (Ok (Some (-10))) by (vm_compute; reflexivity).
  cbn [bind c_literal limited s_signed]. f_equal. destruct (Z.leb_spec 10 raw), (Z.leb_spec raw (-10)); cbn; lia.
Qed.

(** A limit off the grid is rounded: raw 2 has the physical value 4, below the minimum 5. *)
Theorem C40_off_grid_refuted :
  let s := limited 2 0 8 false (Some (NInt 5)) None in is_in_range s 2 = Ok true /\ 2 * 2 < 5.
Proof. cbv zeta. split; [vm_compute; reflexivity|lia]. Qed.

(** An upper limit below all raw values of an unsigned signal: compared as a large unsigned number. *)
Theorem C40_unsigned_refuted :
  let s := limited 1 0 8 false None (Some (NInt (-5))) in forall raw, 0 <= raw <= 255 -> is_in_range s raw = Ok true.
Proof.
  cbv zeta. intros raw H. unfold is_in_range.
  replace (lower_bound _) with (Ok (@None Z)) by (vm_compute; reflexivity).
  replace (upper_bound _) with (Ok (Some (-5))) by (vm_compute; reflexivity).
  cbn [bind]. f_equal. cbn [andb]. apply Z.leb_le.
  replace (c_literal _ _) with 4294967291 by (vm_compute; reflexivity). lia.
Qed.

(** ** C41 *)
Lemma chars_eqb_eq a b : chars_eqb a b = true <-> a = b.
Proof. unfold chars_eqb. destruct (list_eq_dec ascii_dec a b); split; congruence. Qed.
Lemma chars_in_In x l : chars_in x l = true <-> In x l.
Proof.
  unfold chars_in. rewrite existsb_exists. split; [intros (y & Hy & E); apply chars_eqb_eq in E; now subst|].
  intros H. exists x. split; [exact H|now apply chars_eqb_eq].
Qed.

(** The loop ends with a name that is not taken. *)
Lemma free_name_spec taken : forall fuel name,
  exists k, free_name fuel name taken = name ++ repeat underscore k /\
    (~ In (free_name fuel name taken) taken \/ k = fuel /\ forall j, (j < fuel)%nat -> In (name ++ repeat underscore j) taken).
Proof.
  induction fuel as [|f IH]; intros name; cbn [free_name].
  - exists 0%nat. cbn. rewrite app_nil_r. split; [reflexivity|]. right. split; [reflexivity|]. intros j Hj. lia.
  - destruct (chars_in name taken) eqn:E.
    + destruct (IH (name ++ [underscore])) as (k & K1 & K2). exists (S k). rewrite K1. rewrite <- app_assoc. split; [reflexivity|].
      rewrite K1, <- app_assoc in K2. cbn [app repeat] in K2 |- *. destruct K2 as [K2|[-> K2]]; [now left|]. right. split; [reflexivity|].
      intros [|j] Hj; [cbn; rewrite app_nil_r; now apply chars_in_In|]. cbn [repeat].
      specialize (K2 j). rewrite <- app_assoc in K2. apply K2. lia.
    + exists 0%nat. cbn. rewrite app_nil_r. split; [reflexivity|]. left. intros H. apply chars_in_In in H. congruence.
Qed.
Lemma free_name_free taken name : ~ In (free_name (S (List.length taken)) name taken) taken.
Proof.
  destruct (free_name_spec taken (S (List.length taken)) name) as (k & _ & [H|[_ H]]); [exact H|]. exfalso.
  set (l := map (fun j => name ++ repeat underscore j) (seq 0 (S (List.length taken)))).
  assert (I : incl l taken).
  { intros x Hx. apply in_map_iff in Hx. destruct Hx as (j & <- & Hj). apply in_seq in Hj. apply H. lia. }
  assert (ND : NoDup l).
  { unfold l. apply FinFun.Injective_map_NoDup; [|apply seq_NoDup]. intros a b E. apply app_inv_head in E.
    apply (f_equal (@List.length _)) in E. now rewrite !repeat_length in E. }
  assert (L := NoDup_incl_length ND I). unfold l in L. rewrite map_length, seq_length in L. exact (Nat.nle_succ_diag_l _ L).
Qed.

Definition dup (items : list (Z * chars)) (vn : Z * chars) : bool := Nat.ltb 1 (count (snd vn) (map snd items)).

Lemma count_in x l : In x l -> (1 <= count x l)%nat.
Proof.
  intros H. unfold count. assert (In x (filter (chars_eqb x) l)) by (apply filter_In; split; [exact H|now apply chars_eqb_eq]).
  destruct (filter _ _); [contradiction|cbn; lia].
Qed.
Lemma count_one_nodup (items : list (Z * chars)) : NoDup (map fst items) ->
  NoDup (map snd (filter (fun vn => Nat.eqb (count (snd vn) (map snd items)) 1) items)).
Proof.
  intros _. set (P := fun vn : Z * chars => Nat.eqb (count (snd vn) (map snd items)) 1).
  assert (G : forall l, (forall x, (count x (map snd l) <= count x (map snd items))%nat) -> NoDup (map snd (filter P l))).
  { induction l as [|[z x] l IH]; intros C; [constructor|]. cbn [filter].
    assert (C' : forall y, (count y (map snd l) <= count y (map snd items))%nat).
    { intros y. specialize (C y). unfold count in *. cbn [map filter snd] in C. destruct (chars_eqb y x); cbn [List.length] in C; lia. }
    destruct (P (z, x)) eqn:E; [|now apply IH]. cbn [map snd]. constructor; [|now apply IH].
    intros H. apply in_map_iff in H. destruct H as ([z' x'] & Ex & H). cbn in Ex. subst x'. apply filter_In in H. destruct H as [H _].
    assert (1 <= count x (map snd l))%nat by (apply count_in, in_map_iff; exists (z', x); auto).
    specialize (C x). unfold P in E. cbn [snd] in E. apply Nat.eqb_eq in E. unfold count in *. cbn [map filter snd] in C.
    assert (R : chars_eqb x x = true) by now apply chars_eqb_eq. rewrite R in C. cbn [List.length] in C. lia. }
  apply G. lia.
Qed.

(** Keys of a dictionary after the loop *)
Lemma set_names (u : list (Z * chars)) v n : ~ In v (map fst u) -> zset u v n = u ++ [(v, n)].
Proof. intros H. now apply (set_new _ zspec). Qed.

Theorem make_unique_spec items : NoDup (map fst items) ->
  Permutation (map fst (make_unique items)) (map fst items) /\
  NoDup (map snd (make_unique items)) /\
  forall v n, In (v, n) items -> exists suffix, In (v, n ++ suffix) (make_unique items) /\
    ((forall v', In (v', n) items -> v' = v) -> suffix = []).
Proof.
  intros ND. unfold make_unique. set (names := map snd items).
  set (u0 := filter _ items).
  set (step := fun (u : list (Z * chars)) (vn : Z * chars) => if Nat.ltb 1 (count (snd vn) names) then _ else u).
  assert (G : forall l u, NoDup (map fst l) -> NoDup (map snd u) -> NoDup (map fst u) ->
     (forall v n, In (v, n) l -> Nat.ltb 1 (count n names) = true -> ~ In v (map fst u)) ->
     let r := fold_left step l u in
     NoDup (map snd r) /\ NoDup (map fst r) /\
     (forall v, In v (map fst r) <-> In v (map fst u) \/ exists n, In (v, n) l /\ Nat.ltb 1 (count n names) = true) /\
     (forall x, In x u -> In x r) /\
     (forall v n, In (v, n) l -> Nat.ltb 1 (count n names) = true -> exists sf, In (v, n ++ sf) r)).
  { induction l as [|[v n] l IH]; intros u NL NU NK FR r.
    { subst r. cbn [fold_left]. split; [exact NU|]. split; [exact NK|]. split; [|split; [auto|intros v n []]].
      intros v. split; [auto|]. intros [H|(n & [] & _)]. exact H. }
    subst r. cbn [fold_left map fst] in *. inversion NL as [|? ? NI NL']; subst.
    unfold step at 2 4 6 8 10. cbn [fst snd]. destruct (Nat.ltb 1 (count n names)) eqn:D.
    - set (nm := free_name _ _ _). assert (NF : ~ In v (map fst u)) by (apply (FR v n); [now left|exact D]).
      rewrite set_names by exact NF.
      assert (NM : ~ In nm (map snd u)).
      { unfold nm. rewrite <- (map_length snd u). apply free_name_free. }
      destruct (IH (u ++ [(v, nm)])) as (A1 & A2 & A3 & A4 & A5).
      + exact NL'.
      + rewrite map_app. apply Permutation_NoDup with (nm :: map snd u); [apply Permutation_cons_append|now constructor].
      + rewrite map_app. apply Permutation_NoDup with (v :: map fst u); [apply Permutation_cons_append|now constructor].
      + intros v' n' Hin D'. rewrite map_app, in_app_iff. cbn. intros [H|[<-|[]]].
        * revert H. apply (FR v' n'); [now right|exact D'].
        * apply NI. apply in_map_iff. exists (v, n'). auto.
      + split; [exact A1|]. split; [exact A2|]. split; [|split].
        * intros v'. rewrite A3, map_app, in_app_iff. cbn. split.
          -- intros [[H|[<-|[]]]|(n' & Hn & D')]; [auto|right; exists n; split; [now left|exact D]|right; exists n'; split; [now right|exact D']].
          -- intros [H|(n' & [E|Hn] & D')]; [auto| |right; eauto]. injection E as <- <-. auto.
        * intros x Hx. apply A4. apply in_or_app. now left.
        * intros v' n' [E|Hn] D'; [|eauto]. injection E as <- <-.
          destruct (free_name_spec (map snd u) (S (List.length u)) (n ++ canonical (underscore :: decimal v))) as (k & K & _).
          exists (canonical (underscore :: decimal v) ++ repeat underscore k). apply A4. apply in_or_app. right. left.
          unfold nm. rewrite K. now rewrite app_assoc.
    - destruct (IH u) as (A1 & A2 & A3 & A4 & A5); auto.
      { intros v' n' Hin D'. apply (FR v' n'); [now right|exact D']. }
      split; [exact A1|]. split; [exact A2|]. split; [|split; [exact A4|]].
      + intros v'. rewrite A3. split.
        * intros [H|(n' & Hn & D')]; [auto|right; exists n'; split; [now right|exact D']].
        * intros [H|(n' & [E|Hn] & D')]; [auto| |right; eauto]. injection E as <- <-. congruence.
      + intros v' n' [E|Hn] D'; [|eauto]. injection E as <- <-. congruence. }
  assert (U0 : forall v n, In (v, n) u0 <-> In (v, n) items /\ count n names = 1%nat).
  { intros v n. unfold u0. rewrite filter_In. cbn [snd]. fold names. now rewrite Nat.eqb_eq. }
  assert (SAME : forall v n n', In (v, n) items -> In (v, n') items -> n = n').
  { intros v n n' H1 H2. apply (in_get _ zspec) in H1; [|exact ND]. apply (in_get _ zspec) in H2; [|exact ND]. congruence. }
  destruct (G items u0) as (A1 & A2 & A3 & A4 & A5).
  - exact ND.
  - now apply count_one_nodup.
  - unfold u0. clear -ND. induction items as [|x l IH]; [constructor|]. cbn in ND. inversion ND; subst. 
    assert (G : forall P, NoDup (map fst (filter P (x :: l)))); [|apply G].
    clear -H1 H2. intros P. assert (G : forall l', NoDup (map fst l') -> NoDup (map (@fst Z chars) (filter P l'))).
    { induction l' as [|y l' IH]; [constructor|]. cbn. intros ND'. inversion ND'; subst. destruct (P y); [|now apply IH].
      cbn. constructor; [|now apply IH]. intros H. apply in_map_iff in H. destruct H as (w & E & Hw). apply filter_In in Hw.
      apply H3. rewrite <- E. now apply in_map. }
    apply G. now constructor.
  - intros v n Hin D H. apply in_map_iff in H. destruct H as ([v' n'] & E & H). cbn in E. subst v'. apply U0 in H. destruct H as [H1 H2].
    assert (n = n') by (eapply SAME; eauto). subst n'. rewrite H2 in D. discriminate.
  - fold step. cbv zeta in A1. 
    assert (CNT : forall v n, In (v, n) items -> count n names = 1%nat \/ Nat.ltb 1 (count n names) = true).
    { intros v n H. assert (1 <= count n names)%nat by (apply count_in, in_map_iff; exists (v, n); auto).
      destruct (Nat.ltb_spec 1 (count n names)); [auto|left; lia]. }
    split; [|split; [exact A1|]].
    + apply NoDup_Permutation; [exact A2|exact ND|]. intros v. rewrite A3. split.
      * intros [H|(n & H & _)]; [|apply in_map_iff; exists (v, n); auto].
        apply in_map_iff in H. destruct H as ([v' n] & E & H). cbn in E. subst v'. apply U0 in H. apply in_map_iff. exists (v, n). tauto.
      * intros H. apply in_map_iff in H. destruct H as ([v' n] & E & H). cbn in E. subst v'.
        destruct (CNT v n H); [left; apply in_map_iff; exists (v, n); split; [reflexivity|]; now apply U0|right; eauto].
    + intros v n H. destruct (CNT v n H) as [C|C].
      * exists []. rewrite app_nil_r. split; [|auto]. apply A4. now apply U0.
      * destruct (A5 v n H C) as [sf Hs]. exists sf. split; [exact Hs|]. intros UN. exfalso.
        assert (LEN : forall l : list (Z * chars), NoDup (map fst l) -> (forall w, In (w, n) l -> w = v) -> (count n (map snd l) <= 1)%nat).
        { clear. induction l as [|[w x] l IH]; intros ND UN; [cbn; lia|]. cbn in ND. inversion ND; subst. unfold count. cbn [map filter snd].
          assert (I := IH H2 (fun w Hw => UN w (or_intror Hw))). unfold count in I.
          destruct (chars_eqb n x) eqn:E; [|exact I]. apply chars_eqb_eq in E. subst x. cbn [List.length].
          assert (w = v) by (apply UN; now left). subst w.
          destruct (filter (chars_eqb n) (map snd l)) as [|y r] eqn:F; [cbn; lia|]. exfalso.
          assert (Hy : In y (filter (chars_eqb n) (map snd l))) by (rewrite F; now left). apply filter_In in Hy. destruct Hy as [Hy Ey].
          apply chars_eqb_eq in Ey. subst y. apply in_map_iff in Hy. destruct Hy as ([w x] & Ex & Hw). cbn in Ex. subst x.
          assert (w = v) by (apply UN; now right). subst w. apply H1. apply in_map_iff. exists (v, n). auto. }
        specialize (LEN items ND UN). fold names in LEN. apply Nat.ltb_lt in C. lia.
Qed.

(** C41: the names of one signal's values are pairwise distinct, every value of the table has exactly one,
    and it starts with the converted text; it is the converted text if no other value shares that. *)
Theorem C41_unique_choices ch : NoDup (map fst ch) ->
  Permutation (map fst (unique_choices ch)) (map fst ch) /\ NoDup (map snd (unique_choices ch)) /\
  forall v c, In (v, c) ch -> exists suffix,
    In (v, upper (snake_chars (list_ascii_of_string (choice_str c))) ++ suffix) (unique_choices ch) /\
    ((forall v' c', In (v', c') ch -> upper (snake_chars (list_ascii_of_string (choice_str c'))) =
                                      upper (snake_chars (list_ascii_of_string (choice_str c))) -> v' = v) -> suffix = []).
Proof.
  intros ND. assert (K : map fst (choice_items ch) = map fst ch) by (unfold choice_items; now rewrite map_map).
  destruct (make_unique_spec (choice_items ch)) as (A & B & C); [now rewrite K|]. rewrite K in A. split; [exact A|]. split; [exact B|].
  intros v c H. destruct (C v (upper (snake_chars (list_ascii_of_string (choice_str c))))) as (sf & S1 & S2).
  { apply in_map_iff. exists (v, c). auto. }
  exists sf. split; [exact S1|]. intros UN. apply S2. intros v' Hv. apply in_map_iff in Hv. destruct Hv as ([w c'] & E & Hw).
  injection E as <- E. apply (UN w c' Hw). exact E.
Qed.

(** The macro names of one signal are distinct. *)
Theorem C41_macros s ch : conv_choices (s_conv s) = Some ch -> NoDup (map fst ch) -> NoDup (choice_macros s).
Proof.
  intros E ND. unfold choice_macros. rewrite E. destruct (C41_unique_choices ch ND) as (_ & B & _).
  induction (unique_choices ch) as [|[v n] l IH]; [constructor|]. cbn [map snd] in *. inversion B as [|? ? N B']; subst.
  constructor; [|now apply IH]. intros H. apply in_map_iff in H. destruct H as ([v' n'] & Eq & H). cbn [snd] in Eq.
  apply app_inv_head in Eq. injection Eq as Eq. apply app_inv_tail in Eq. subst n'. apply N. apply in_map_iff. exists (v', n). auto.
Qed.

Local Open Scope string_scope.
Definition table : choices_t := [(0, ChNamed 0 "Off"); (1, ChNamed 1 "off"); (-1, ChNamed (-1) "Off_0"); (7, ChNamed 7 "a-b")].
Example C41_example : NoDup (map fst table) /\
  map (fun p => (fst p, string_of_list_ascii (snd p))) (unique_choices table) =
  [(-1, "OFF_0"); (7, "A_B"); (0, "OFF_0_"); (1, "OFF_1")].
Proof. split; [|vm_compute; reflexivity]. repeat constructor; cbn; lia. Qed.

(** Names of different signals of a message may clash. *)
Definition with_table (name : string) (c : choice) : signal :=
  sig name 0 8 false false (conv_of (NInt 1) (NInt 0) (Some [(0, c)]) false).
Theorem C41_two_signals_refuted :
  choice_macros (with_table "A" (ChNamed 0 "B_C")) = choice_macros (with_table "A_B" (ChNamed 0 "C")) /\
  choice_macros (with_table "A" (ChNamed 0 "B_C")) <> [].
Proof. split; [vm_compute; reflexivity|]. intros E. vm_compute in E. discriminate E. Qed.

(** ** C54 *)
Definition ident_char (c : ascii) : bool := is_lower c || is_digit c || Ascii.eqb c underscore.

Lemma lower_not_upper c : is_upper (to_lower c) = false.
Proof. destruct c as [[] [] [] [] [] [] [] []]; reflexivity. Qed.

(** The member, function and variable names consist of a-z, 0-9 and _ only; empty only for empty names. *)
Theorem C54_identifiers s : forallb ident_char (snake_chars s) = true /\ (snake_chars s = [] -> s = []).
Proof.
  split.
  - unfold snake_chars, canonical. apply forallb_forall. intros c H. apply in_map_iff in H. destruct H as (d & <- & H).
    apply in_map_iff in H. destruct H as (e & <- & _). destruct e as [[] [] [] [] [] [] [] []]; reflexivity.
  - unfold snake_chars, canonical. intros H. apply map_eq_nil, map_eq_nil in H.
    assert (A : forall l, split_case l = [] -> l = []).
    { intros [|a [|b r]]; cbn; [auto|discriminate|]. destruct (_ && _); discriminate. }
    apply A in H.
    assert (B : forall l, squeeze l = [] -> l = []).
    { induction l as [|a [|b r] IH]; cbn; [auto|discriminate|]. destruct (_ && _); [|discriminate]. intros E. now apply IH in E. }
    apply B in H. destruct s as [|a [|b [|c r]]]; cbn in H; [reflexivity|discriminate|discriminate|].
    destruct (_ && _); [|discriminate]. destruct (span_lower r). discriminate.
Qed.

(** A name may still be no C identifier: it can start with a digit, or be a keyword. *)
Theorem C54_identifier_refuted : snake "2ndGear" = "2nd_gear" /\ snake "Default" = "default".
Proof. split; vm_compute; reflexivity. Qed.

Example C54_example : snake "EngineRPM2Max" = "engine_rpm2_max" /\ snake "ABCd__e" = "ab_cd_e".
Proof. split; vm_compute; reflexivity. Qed.
