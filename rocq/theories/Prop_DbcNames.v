(** C45: the short names that are written to a DBC file.  C46: multiplexer ranges.  C48: frame ids. *)
From Coq Require Import Ascii Sorting.Permutation Sorting.Sorted.
From Verif Require Import Base CSource CNames Regex DictLemmas DecText DbcNames Prop_CNames Prop_Cache.
Local Open Scope string_scope.
Local Open Scope Z_scope.
Local Open Scope list_scope.

Notation len := (@List.length ascii).
Definition txt (s : string) : chars := list_ascii_of_string s.

(** ** The candidates of the loop *)
Fixpoint cand (s : chars) (i : nat) : chars :=
  match i with O => s | S i' => firstn 27 (cand s i') ++ underscore :: pad4 i' end.

Lemma pad4_digits n : forallb is_digit (pad4 n) = true.
Proof.
  unfold pad4. rewrite forallb_app, decimal_digits by lia. rewrite andb_true_r.
  generalize (4 - len (decimal (Z.of_nat n)))%nat. intros k. induction k; [reflexivity|exact IHk].
Qed.
Lemma pad4_inj a b : pad4 a = pad4 b -> a = b.
Proof.
  intros E. apply (f_equal (digits_value 0)) in E. unfold pad4 in E. rewrite !digits_zeros, !decimal_value in E by lia. lia.
Qed.
Lemma pad4_length n : len (pad4 n) = Nat.max 4 (len (decimal (Z.of_nat n))).
Proof. unfold pad4. rewrite app_length, repeat_length. lia. Qed.
Lemma pad4_mono a b : (a <= b)%nat -> (len (pad4 a) <= len (pad4 b))%nat.
Proof. intros H. rewrite !pad4_length. pose proof (decimal_length_mono (Z.of_nat a) (Z.of_nat b) ltac:(lia)). lia. Qed.
Lemma pad4_small n : Z.of_nat n < 10000 -> len (pad4 n) = 4%nat.
Proof. intros H. rewrite pad4_length. pose proof (decimal_length (Z.of_nat n) 3 ltac:(cbn; lia)). lia. Qed.

Lemma cand_length s i : len (cand s (S i)) = (Nat.min 27 (len (cand s i)) + 1 + len (pad4 i))%nat.
Proof. cbn [cand]. rewrite app_length, firstn_length. cbn [List.length]. lia. Qed.
Lemma cand_min s i j : (i <= j)%nat -> (Nat.min 27 (len (cand s i)) <= Nat.min 27 (len (cand s j)))%nat.
Proof.
  induction 1 as [|j L IH]; [lia|]. rewrite cand_length, pad4_length. lia.
Qed.
Lemma cand_prefix s i j : (i <= j)%nat -> (27 <= len (cand s i))%nat -> firstn 27 (cand s j) = firstn 27 (cand s i).
Proof.
  intros L G. induction L as [|j L IH]; [reflexivity|]. cbn [cand]. rewrite <- IH.
  pose proof (cand_min s i j L). rewrite firstn_app, firstn_firstn. rewrite firstn_length.
  replace (27 - Nat.min 27 (len (cand s j)))%nat with 0%nat by lia. cbn [firstn Nat.min]. apply app_nil_r.
Qed.
Lemma cand_distinct s i j : (i < j)%nat -> cand s (S i) <> cand s (S j).
Proof.
  intros L E. pose proof (f_equal (@List.length ascii) E) as EL. rewrite !cand_length in EL.
  pose proof (pad4_mono i j ltac:(lia)) as PM. pose proof (cand_min s (S i) j ltac:(lia)) as CM.
  rewrite cand_length, pad4_length in CM.
  destruct (Nat.le_gt_cases 27 (len (cand s i))) as [G|G].
  - cbn [cand] in E. rewrite (cand_prefix s i j) in E by lia. apply app_inv_head in E. injection E as E.
    apply pad4_inj in E. lia.
  - rewrite pad4_length in EL, PM. lia.
Qed.

Lemma nget_none d n : nget d n = None <-> ~ In n (map fst d).
Proof. apply (get_none _ chars_spec). Qed.

Lemma free_short_spec used s : forall fuel i,
  match free_short fuel used i (cand s i) with
  | Some x => exists j, (i <= j <= i + fuel)%nat /\ x = cand s j /\ nget used x = None /\
                        forall k, (i <= k < j)%nat -> In (cand s k) (map fst used)
  | None => forall k, (i <= k <= i + fuel)%nat -> In (cand s k) (map fst used)
  end.
Proof.
  assert (U : forall n v, nget used n = Some v -> In n (map fst used)).
  { intros n v H. apply (get_in _ chars_spec) in H. apply in_map_iff. exists (n, v). auto. }
  induction fuel as [|f IH]; intros i; cbn [free_short]; destruct (nget used (cand s i)) as [v|] eqn:E.
  - intros k K. replace k with i by lia. exact (U _ _ E).
  - exists i. split; [lia|]. split; [reflexivity|]. split; [exact E|]. intros k K. lia.
  - specialize (IH (S i)). cbn [cand] in IH. destruct (free_short f used (S i) _) as [x|].
    + destruct IH as (j & J & X & N & A). exists j. split; [lia|]. split; [exact X|]. split; [exact N|].
      intros k K. destruct (Nat.eq_dec k i) as [->|]; [exact (U _ _ E)|apply A; lia].
    + intros k K. destruct (Nat.eq_dec k i) as [->|]; [exact (U _ _ E)|apply IH; lia].
  - exists i. split; [lia|]. split; [reflexivity|]. split; [exact E|]. intros k K. lia.
Qed.
(** At most as many candidates can be taken as there are names. *)
Lemma cand_taken (used : names_map) s n : (forall k, (1 <= k <= n)%nat -> In (cand s k) (map fst used)) -> (n <= List.length used)%nat.
Proof.
  intros H. set (l := map (fun k => cand s (S k)) (seq 0 n)).
  assert (I : incl l (map fst used)).
  { intros x X. apply in_map_iff in X. destruct X as (k & <- & K). apply in_seq in K. apply H. lia. }
  assert (ND : NoDup l).
  { unfold l. clear. apply FinFun.Injective_map_NoDup; [|apply seq_NoDup].
    intros a b E. destruct (Nat.lt_trichotomy a b) as [L|[->|L]]; [|reflexivity|].
    - now apply cand_distinct in E.
    - symmetry in E. now apply cand_distinct in E. }
  pose proof (NoDup_incl_length ND I) as L. unfold l in L. rewrite !map_length, seq_length in L. exact L.
Qed.
Lemma free_short_some (used : names_map) s fuel : (List.length used < fuel)%nat ->
  exists j, free_short fuel used 0 s = Some (cand s j) /\ ~ In (cand s j) (map fst used) /\
            (j <= List.length used + 1)%nat /\ forall k, (k < j)%nat -> In (cand s k) (map fst used).
Proof.
  intros F. pose proof (free_short_spec used s fuel 0) as H. change (cand s 0) with s in H.
  destruct (free_short fuel used 0 s) as [x|].
  - destruct H as (j & J & -> & N & A). exists j. split; [reflexivity|]. split; [now apply nget_none|]. split.
    + destruct j as [|j]; [lia|]. pose proof (cand_taken used s j) as C. assert (j <= List.length used)%nat; [|lia].
      apply C. intros k K. apply A. lia.
    + intros k K. apply A. lia.
  - exfalso. pose proof (cand_taken used s fuel) as C. assert (fuel <= List.length used)%nat; [|lia].
    apply C. intros k K. apply H. lia.
Qed.

(** ** The order *)
Lemma text_leb_total : forall a b, text_leb a b = true \/ text_leb b a = true.
Proof.
  induction a as [|x a IH]; intros [|y b]; cbn; auto.
  destruct (N.ltb_spec (code x) (code y)); [auto|]. destruct (N.ltb_spec (code y) (code x)); auto.
Qed.
Lemma code_inj x y : code x = code y -> x = y.
Proof. intros E. unfold code in E. rewrite <- (ascii_N_embedding x), <- (ascii_N_embedding y), E. reflexivity. Qed.
Lemma text_leb_antisym : forall a b, text_leb a b = true -> text_leb b a = true -> a = b.
Proof.
  induction a as [|x a IH]; intros [|y b]; cbn; try congruence.
  destruct (N.ltb_spec (code x) (code y)); destruct (N.ltb_spec (code y) (code x)); try lia; try congruence.
  intros A B. rewrite (IH b A B). f_equal. apply code_inj. lia.
Qed.
Lemma text_leb_trans : forall a b c, text_leb a b = true -> text_leb b c = true -> text_leb a c = true.
Proof.
  induction a as [|x a IH]; intros [|y b] [|z c]; cbn; try congruence.
  destruct (N.ltb_spec (code x) (code y)); destruct (N.ltb_spec (code y) (code x));
    destruct (N.ltb_spec (code y) (code z)); destruct (N.ltb_spec (code z) (code y));
    destruct (N.ltb_spec (code x) (code z)); destruct (N.ltb_spec (code z) (code x)); try lia; try congruence.
  apply IH.
Qed.
Lemma name_leb_total a b : name_leb a b = true \/ name_leb b a = true.
Proof.
  unfold name_leb. destruct (Nat.ltb_spec (len a) (len b)); [auto|]. destruct (Nat.ltb_spec (len b) (len a)); [auto|].
  apply text_leb_total.
Qed.
Lemma name_leb_antisym a b : name_leb a b = true -> name_leb b a = true -> a = b.
Proof.
  unfold name_leb. destruct (Nat.ltb_spec (len a) (len b)); destruct (Nat.ltb_spec (len b) (len a)); try lia; try congruence.
  apply text_leb_antisym.
Qed.
Lemma name_leb_trans a b c : name_leb a b = true -> name_leb b c = true -> name_leb a c = true.
Proof.
  unfold name_leb. destruct (Nat.ltb_spec (len a) (len b)); destruct (Nat.ltb_spec (len b) (len a));
    destruct (Nat.ltb_spec (len b) (len c)); destruct (Nat.ltb_spec (len c) (len b));
    destruct (Nat.ltb_spec (len a) (len c)); destruct (Nat.ltb_spec (len c) (len a)); try lia; try congruence.
  apply text_leb_trans.
Qed.
Lemma name_leb_length a b : name_leb a b = true -> (len a <= len b)%nat.
Proof. unfold name_leb. destruct (Nat.ltb_spec (len a) (len b)); [lia|]. destruct (Nat.ltb_spec (len b) (len a)); [discriminate|lia]. Qed.
Lemma names_sorted names : StronglySorted (fun a b => name_leb a b = true) (sorted_py name_leb names).
Proof.
  apply sorted_py_sorted; [|exact name_leb_trans].
  intros a b H. destruct (name_leb_total a b); congruence.
Qed.
Lemma sorted_unique {A} (R : A -> A -> Prop) : (forall a b, R a b -> R b a -> a = b) -> forall l m : list A,
  StronglySorted R l -> StronglySorted R m -> Permutation l m -> l = m.
Proof.
  intros AS. induction l as [|x l IH]; intros m SL SM P.
  - apply Permutation_nil in P. now subst.
  - destruct m as [|y m]; [apply Permutation_sym, Permutation_nil in P; discriminate P|].
    apply StronglySorted_inv in SL. destruct SL as [SL FL]. apply StronglySorted_inv in SM. destruct SM as [SM FM].
    rewrite Forall_forall in FL, FM.
    assert (x = y).
    { assert (X : In x (y :: m)) by (apply (Permutation_in _ P); now left).
      assert (Y : In y (x :: l)) by (apply (Permutation_in _ (Permutation_sym P)); now left).
      destruct X as [->|X]; [reflexivity|]. destruct Y as [->|Y]; [reflexivity|]. apply AS; auto. }
    subst y. apply Permutation_cons_inv in P. now rewrite (IH m SL SM P).
Qed.

(** ** The whole conversion *)
(** [l2s] and [s2l] after the names [done]. *)
Definition conv_inv (total : nat) (done : list chars) (l2s s2l : names_map) : Prop :=
  (map fst l2s = done) /\ (s2l = map (fun p => (snd p, fst p)) l2s) /\ NoDup (map fst s2l) /\
  forall a s, In (a, s) l2s ->
    (exists j, s = cand (firstn 32 a) j /\ (j <= total)%nat) /\ ((len a <= 32)%nat -> s = a).

Lemma conv_step fuel total done l2s s2l long :
  conv_inv total done l2s s2l -> (List.length done < total)%nat -> (List.length done < fuel)%nat ->
  ~ In long done -> (forall a, In a done -> name_leb a long = true) ->
  exists l2s' s2l', convert_step fuel (Some (l2s, s2l)) long = Some (l2s', s2l') /\ conv_inv total (done ++ [long]) l2s' s2l'.
Proof.
  intros (I1 & I2 & I3 & I4) T F NI LE.
  assert (LS : List.length s2l = List.length done) by (rewrite I2, <- I1, !map_length; reflexivity).
  destruct (free_short_some s2l (firstn 32 long) fuel ltac:(lia)) as (j & E & NJ & JB & JU).
  cbn [convert_step]. rewrite E. eexists _, _. split; [reflexivity|].
  unfold nset. rewrite !(set_new _ chars_spec) by (rewrite ?I1; assumption).
  split; [rewrite map_app, I1; reflexivity|]. split; [rewrite I2, map_app; reflexivity|]. split.
  { rewrite map_app. cbn [map fst]. apply Permutation_NoDup with (cand (firstn 32 long) j :: map fst s2l); [apply Permutation_cons_append|]. now constructor. }
  intros a s H. apply in_app_or in H. destruct H as [H|[H|[]]]; [exact (I4 a s H)|]. apply pair_equal_spec in H. destruct H as [<- <-].
  split; [exists j; split; [reflexivity|lia]|]. intros L.
  destruct j as [|j]; [cbn [cand]; apply firstn_all2; exact L|exfalso].
  specialize (JU 0%nat ltac:(lia)). cbn [cand] in JU. rewrite firstn_all2 in JU by exact L.
  rewrite I2, map_map in JU. cbn [fst] in JU. apply in_map_iff in JU. destruct JU as ([a s] & E2 & H). cbn [snd] in E2. subst s.
  assert (D : In a done) by (rewrite <- I1; apply in_map_iff; exists (a, long); auto).
  destruct (I4 a long H) as [_ S]. pose proof (name_leb_length _ _ (LE a D)) as LL. rewrite (S ltac:(lia)) in NI. contradiction.
Qed.

Lemma conv_fold fuel total : forall todo done l2s s2l,
  conv_inv total done l2s s2l -> (List.length done + List.length todo <= total)%nat -> (List.length done + List.length todo <= fuel)%nat ->
  StronglySorted (fun a b => name_leb a b = true) todo -> NoDup (done ++ todo) ->
  (forall a b, In a done -> In b todo -> name_leb a b = true) ->
  exists l2s' s2l', fold_left (convert_step fuel) todo (Some (l2s, s2l)) = Some (l2s', s2l') /\ conv_inv total (done ++ todo) l2s' s2l'.
Proof.
  induction todo as [|x todo IH]; intros done l2s s2l I T F S ND LE.
  - exists l2s, s2l. rewrite app_nil_r. auto.
  - cbn [List.length] in T, F. apply StronglySorted_inv in S. destruct S as [S SX].
    assert (NX : ~ In x done) by (intros H; apply NoDup_remove_2 in ND; apply ND, in_or_app; now left).
    destruct (conv_step fuel total done l2s s2l x I ltac:(lia) ltac:(lia) NX) as (l2s' & s2l' & E & I').
    { intros a A. apply LE; [exact A|now left]. }
    cbn [fold_left]. rewrite E.
    destruct (IH (done ++ [x]) l2s' s2l' I') as (l & s & E2 & I2).
    + rewrite app_length. cbn [List.length]. lia.
    + rewrite app_length. cbn [List.length]. lia.
    + exact S.
    + rewrite <- app_assoc. exact ND.
    + intros a b A B. apply in_app_or in A. destruct A as [A|[<-|[]]]; [apply LE; [exact A|now right]|].
      rewrite Forall_forall in SX. exact (SX b B).
    + rewrite <- app_assoc in I2. eauto.
Qed.

Lemma conv_ok names fuel : NoDup names -> (List.length names <= fuel)%nat ->
  exists l2s s2l, convert_names_fuel fuel names = Some (l2s, s2l) /\ conv_inv (List.length names) (sorted_py name_leb names) l2s s2l.
Proof.
  intros ND F. pose proof (sorted_py_perm name_leb names) as P. pose proof (Permutation_length P) as PL.
  apply (conv_fold fuel (List.length names) (sorted_py name_leb names) [] [] []).
  - split; [reflexivity|]. split; [reflexivity|]. split; [constructor|]. intros a s [].
  - cbn [List.length]. rewrite PL. lia.
  - cbn [List.length]. rewrite PL. lia.
  - apply names_sorted.
  - cbn [app]. apply (Permutation_NoDup (Permutation_sym P)). exact ND.
  - intros a b [].
Qed.

Lemma conv_names names l2s s2l : NoDup names -> convert_names names = Some (l2s, s2l) ->
  conv_inv (List.length names) (sorted_py name_leb names) l2s s2l.
Proof.
  intros ND E. destruct (conv_ok names (S (List.length names)) ND ltac:(lia)) as (l & s & E2 & I).
  unfold convert_names in E. rewrite E2 in E. congruence.
Qed.

(** ** C45 *)
(** The loop that looks for a free short name always ends: more rounds than there are names change nothing. *)
Theorem C45_terminates names : exists l2s s2l, forall fuel, (List.length names < fuel)%nat ->
  convert_names_fuel fuel names = Some (l2s, s2l).
Proof.
  unfold convert_names_fuel. set (l := sorted_py name_leb names).
  assert (PL : List.length l = List.length names) by (apply Permutation_length, sorted_py_perm). rewrite <- PL. clear PL. clearbody l.
  assert (G : forall todo (l2s s2l : names_map) n, (List.length s2l + List.length todo <= n)%nat ->
            exists l2s' s2l', forall fuel, (n < fuel)%nat -> fold_left (convert_step fuel) todo (Some (l2s, s2l)) = Some (l2s', s2l')).
  { induction todo as [|x todo IH]; intros l2s s2l n N; [exists l2s, s2l; intros; reflexivity|]. cbn [List.length] in N.
    destruct (free_short_some s2l (firstn 32 x) (S n) ltac:(lia)) as (j & _ & NJ & JB & JU).
    assert (E : forall fuel, (n < fuel)%nat -> free_short fuel s2l 0 (firstn 32 x) = Some (cand (firstn 32 x) j)).
    { intros fuel F. destruct (free_short_some s2l (firstn 32 x) fuel ltac:(lia)) as (j' & E' & NJ' & _ & JU'). rewrite E'.
      destruct (Nat.lt_trichotomy j j') as [L|[->|L]]; [now specialize (JU' j L)|reflexivity|now specialize (JU j' L)]. }
    destruct (IH (nset l2s x (cand (firstn 32 x) j)) (nset s2l (cand (firstn 32 x) j) x) n) as (l' & s' & H).
    { unfold nset. rewrite (set_new _ chars_spec) by exact NJ. rewrite app_length. cbn [List.length]. lia. }
    exists l', s'. intros fuel F. cbn [fold_left convert_step]. rewrite E by exact F. apply H, F. }
  apply (G l [] [] (List.length l)). cbn. lia.
Qed.

(** Every name gets a short name, which leads back to it. *)
Theorem C45_restores names l2s s2l a : NoDup names -> convert_names names = Some (l2s, s2l) -> In a names ->
  exists s, nget l2s a = Some s /\ nget s2l s = Some a.
Proof.
  intros ND E A. destruct (conv_names _ _ _ ND E) as (I1 & I2 & I3 & _).
  assert (D : In a (map fst l2s)) by (rewrite I1; apply (Permutation_in _ (Permutation_sym (sorted_py_perm name_leb names))), A).
  apply in_map_iff in D. destruct D as ([a' s] & <- & D). exists s. split.
  - apply (in_get _ chars_spec); [|exact D]. rewrite I1. apply (Permutation_NoDup (Permutation_sym (sorted_py_perm name_leb names)) ND).
  - apply (in_get _ chars_spec); [exact I3|]. rewrite I2. apply in_map_iff. exists (a', s). auto.
Qed.
(** Different names get different short names. *)
Theorem C45_distinct names l2s s2l a b s : NoDup names -> convert_names names = Some (l2s, s2l) -> In a names -> In b names ->
  nget l2s a = Some s -> nget l2s b = Some s -> a = b.
Proof.
  intros ND E A B SA SB. destruct (C45_restores _ _ _ a ND E A) as (s1 & S1 & R1).
  destruct (C45_restores _ _ _ b ND E B) as (s2 & S2 & R2). congruence.
Qed.
(** Names of up to 32 characters are kept. *)
Theorem C45_short_names_kept names l2s s2l a : NoDup names -> convert_names names = Some (l2s, s2l) -> In a names ->
  (List.length a <= 32)%nat -> nget l2s a = Some a.
Proof.
  intros ND E A L. destruct (C45_restores _ _ _ a ND E A) as (s & S & _). rewrite S. f_equal.
  destruct (conv_names _ _ _ ND E) as (_ & _ & _ & I4). apply (get_in _ chars_spec) in S. now apply (I4 a s S).
Qed.
(** No short name has more than 32 characters, for up to 10000 names. *)
Theorem C45_length names l2s s2l a s : NoDup names -> convert_names names = Some (l2s, s2l) -> Z.of_nat (List.length names) <= 10000 ->
  nget l2s a = Some s -> (List.length s <= 32)%nat.
Proof.
  intros ND E N S. destruct (conv_names _ _ _ ND E) as (_ & _ & _ & I4). apply (get_in _ chars_spec) in S.
  destruct (I4 a s S) as [(j & -> & J) _]. destruct j as [|j]; [cbn [cand]; rewrite firstn_length; lia|].
  rewrite cand_length, pad4_small by lia. lia.
Qed.
(** Short names start like the name and add only '_' and digits. *)
Theorem C45_characters names l2s s2l a s p : NoDup names -> convert_names names = Some (l2s, s2l) ->
  nget l2s a = Some s -> a <> [] -> p underscore = true -> (forall c, is_digit c = true -> p c = true) ->
  forallb p a = true -> forallb p s = true /\ firstn 1 s = firstn 1 a.
Proof.
  intros ND E S NE PU PD PA. destruct (conv_names _ _ _ ND E) as (_ & _ & _ & I4). apply (get_in _ chars_spec) in S.
  destruct (I4 a s S) as [(j & -> & _) _]. clear I4 S E.
  assert (FN : forall n l, forallb p l = true -> forallb p (firstn n l) = true).
  { intros n l H. rewrite <- (firstn_skipn n l), forallb_app in H. now apply andb_true_iff in H. }
  assert (G : forallb p (cand (firstn 32 a) j) = true /\ firstn 1 (cand (firstn 32 a) j) = firstn 1 a /\ cand (firstn 32 a) j <> []).
  { induction j as [|j (I1 & I2 & I3)]; cbn [cand].
    - split; [apply FN, PA|]. destruct a as [|c a]; [congruence|]. split; [reflexivity|discriminate].
    - split; [|split].
      + rewrite forallb_app, FN by exact I1. cbn [forallb]. rewrite PU. cbn [andb].
        pose proof (pad4_digits j) as D. rewrite forallb_forall in *. intros x X. apply PD, D, X.
      + destruct (cand (firstn 32 a) j) as [|c r]; [congruence|]. exact I2.
      + destruct (cand (firstn 32 a) j) as [|c r]; [congruence|]. discriminate. }
  destruct G as (G1 & G2 & _). auto.
Qed.
(** The short names do not depend on the order of the names. *)
Theorem C45_order names names' : Permutation names names' -> convert_names names = convert_names names'.
Proof.
  intros P. unfold convert_names, convert_names_fuel. rewrite (Permutation_length P).
  assert (E : sorted_py name_leb names = sorted_py name_leb names').
  { apply (sorted_unique (fun a b => name_leb a b = true) name_leb_antisym); [apply names_sorted|apply names_sorted|].
    rewrite sorted_py_perm, sorted_py_perm. exact P. }
  now rewrite E.
Qed.
(** Two objects of the same name are not told apart: both get the same, new name. *)
Theorem C45_duplicates_refuted : exists names l2s s2l, convert_names names = Some (l2s, s2l) /\
  names = [txt "a"; txt "a"] /\ nget l2s (txt "a") = Some (txt "a_0000").
Proof.
  exists [txt "a"; txt "a"]. eexists _, _. split; [vm_compute; reflexivity|]. split; [reflexivity|vm_compute; reflexivity].
Qed.

Definition ex_names : list chars :=
  [txt "SignalWithAVeryLongNameOfMoreThan32Characters_B"; txt "SignalWithAVeryLongNameOfMoreThan32Characters_A";
   txt "SignalWithAVeryLongNameOfMo_0000"; txt "Speed"].
Example ex_names_nodup : NoDup ex_names.
Proof. repeat constructor; cbn; intuition discriminate. Qed.
Example ex_convert : exists l2s s2l, convert_names ex_names = Some (l2s, s2l) /\
  map (nget l2s) ex_names =
    [Some (txt "SignalWithAVeryLongNameOfMo_0001"); Some (txt "SignalWithAVeryLongNameOfMoreTha"); Some (txt "SignalWithAVeryLongNameOfMo_0000"); Some (txt "Speed")].
Proof. eexists _, _. split; [vm_compute; reflexivity|vm_compute; reflexivity]. Qed.

(** ** C46: ranges of multiplexer ids *)
Lemma range_ids_app a b : range_ids (a ++ b) = range_ids a ++ range_ids b.
Proof. unfold range_ids. apply flat_map_app. Qed.
Lemma zrange_from_in n : forall a x, In x (zrange_from a n) <-> a <= x < a + Z.of_nat n.
Proof.
  induction n as [|n IH]; intros a x; cbn [zrange_from In]; [lia|]. rewrite IH. lia.
Qed.
Lemma zrange_iff a b x : In x (zrange a b) <-> a <= x < b.
Proof. unfold zrange. rewrite zrange_from_in. lia. Qed.
Lemma in_range_ids rs x : In x (range_ids rs) <-> exists lo hi, In (lo, hi) rs /\ lo <= x <= hi.
Proof.
  unfold range_ids. rewrite in_flat_map. split.
  - intros ([lo hi] & R & X). apply zrange_iff in X. cbn [fst snd] in X. exists lo, hi. split; [exact R|lia].
  - intros (lo & hi & R & X). exists (lo, hi). split; [exact R|]. apply zrange_iff. cbn [fst snd]. lia.
Qed.
(** The ranges written so far, last first *)
Definition ranges_inv (prev : Z) (rs : list (Z * Z)) : Prop :=
  (exists lo r, rs = (lo, prev) :: r) /\ (forall lo hi, In (lo, hi) rs -> lo <= hi <= prev).
Lemma range_step_inv prev rs v : ranges_inv prev rs -> prev <= v ->
  ranges_inv v (snd (range_step (prev, rs) v)) /\ fst (range_step (prev, rs) v) = v /\
  (forall x, In x (range_ids (snd (range_step (prev, rs) v))) <-> In x (range_ids rs) \/ x = v).
Proof.
  intros [(lo & r & ->) B] L. cbn [range_step fst snd]. pose proof (B lo prev ltac:(now left)) as B0.
  destruct (Z.eqb_spec v (prev + 1)) as [->|N].
  - split; [|split; [reflexivity|]].
    + split; [eauto|]. intros l h [E|H]; [|specialize (B l h ltac:(now right)); lia]. apply pair_equal_spec in E. lia.
    + intros x. change ((lo, prev + 1) :: r) with ([(lo, prev + 1)] ++ r). change ((lo, prev) :: r) with ([(lo, prev)] ++ r).
      rewrite !range_ids_app, !in_app_iff. unfold range_ids at 1 3. cbn [flat_map fst snd]. rewrite !app_nil_r, !zrange_iff.
      clear -B0. intuition lia.
  - split; [|split; [reflexivity|]].
    + split; [eauto|]. intros l h [E|H]; [apply pair_equal_spec in E; lia|]. specialize (B l h H). lia.
    + intros x. change ((v, v) :: (lo, prev) :: r) with ([(v, v)] ++ (lo, prev) :: r).
      rewrite range_ids_app, in_app_iff. unfold range_ids at 1. cbn [flat_map fst snd]. rewrite !app_nil_r, !zrange_iff.
      intuition lia.
Qed.
Lemma range_fold : forall todo prev rs, ranges_inv prev rs -> StronglySorted (fun a b => (a <=? b) = true) (prev :: todo) ->
  let out := snd (fold_left range_step todo (prev, rs)) in
  (forall lo hi, In (lo, hi) out -> lo <= hi) /\ (forall x, In x (range_ids out) <-> In x (range_ids rs) \/ In x todo).
Proof.
  induction todo as [|v todo IH]; intros prev rs I S.
  - cbn [fold_left snd]. split; [intros lo hi H; pose proof (proj2 I lo hi H); lia|]. intros x. cbn [In]. tauto.
  - apply StronglySorted_inv in S. destruct S as [S F]. pose proof (Forall_inv F) as L. apply Z.leb_le in L.
    destruct (range_step_inv prev rs v I L) as (I' & E & H).
    cbn [fold_left]. destruct (range_step (prev, rs) v) as [v' rs'] eqn:E2. cbn [fst snd] in *. subst v'.
    destruct (IH v rs' I' S) as [H1 H2]. split; [exact H1|]. intros x. rewrite H2, H. cbn [In]. intuition congruence.
Qed.
Lemma z_sorted l : StronglySorted (fun a b => (a <=? b) = true) (sorted_py Z.leb l).
Proof. apply sorted_py_sorted; intros; lia. Qed.
Lemma mux_first first : range_step (first, []) first = (first, [(first, first)]).
Proof. unfold range_step. destruct (Z.eqb_spec first (first + 1)); [lia|reflexivity]. Qed.

(** The ranges written for a multiplexed signal list exactly its multiplexer ids. *)
Theorem C46_same_ids ids : ids <> [] -> exists rs, create_mux_ranges ids = Ok rs /\
  (forall lo hi, In (lo, hi) rs -> lo <= hi) /\ forall x, In x (range_ids rs) <-> In x ids.
Proof.
  intros NE. unfold create_mux_ranges. pose proof (z_sorted ids) as S. pose proof (sorted_py_perm Z.leb ids) as P.
  destruct (sorted_py Z.leb ids) as [|first rest] eqn:E.
  - apply Permutation_nil in P. contradiction.
  - exists (rev (snd (fold_left range_step rest (first, [(first, first)])))). split; [cbn [fold_left]; rewrite mux_first; reflexivity|].
    destruct (range_fold rest first [(first, first)]) as [H1 H2]; [|exact S|].
    + split; [eauto|]. intros lo hi [H|[]]. apply pair_equal_spec in H. lia.
    + split; [intros lo hi H; apply H1; now apply in_rev|]. intros x. rewrite in_range_ids.
      transitivity (In x (range_ids (snd (fold_left range_step rest (first, [(first, first)]))))).
      { rewrite in_range_ids. split; intros (lo & hi & R & X); exists lo, hi; split; auto; [now apply in_rev|now apply in_rev in R]. }
      rewrite H2, in_range_ids. split.
      * intros [(lo & hi & [R|[]] & X)|R]; [|apply (Permutation_in _ P); now right].
        apply pair_equal_spec in R. apply (Permutation_in _ P). left. lia.
      * intros X. apply (Permutation_in _ (Permutation_sym P)) in X. destruct X as [<-|X]; [left|now right].
        exists first, first. split; [now left|lia].
Qed.

(** For different ids the ranges are in order, do not touch, and list every id once. *)
Lemma range_step_gap prev rs v : ranges_inv prev rs -> prev < v -> ForallOrdPairs (fun p q => snd q + 1 < fst p) rs ->
  ForallOrdPairs (fun p q => snd q + 1 < fst p) (snd (range_step (prev, rs) v)).
Proof.
  intros [(lo & r & ->) B] L F. inversion F as [|? ? F1 F2]; subst. cbn [range_step snd].
  destruct (Z.eqb_spec v (prev + 1)) as [->|N].
  - constructor; [exact F1|exact F2].
  - pose proof (B lo prev ltac:(now left)) as B0. constructor; [|exact F]. apply Forall_forall. intros [l h] H. cbn [fst snd].
    destruct H as [H|H]; [apply pair_equal_spec in H; lia|]. rewrite Forall_forall in F1. specialize (F1 _ H). cbn [fst snd] in F1. lia.
Qed.
Lemma range_fold_gap : forall todo prev rs, ranges_inv prev rs -> StronglySorted Z.lt (prev :: todo) ->
  ForallOrdPairs (fun p q => snd q + 1 < fst p) rs ->
  ForallOrdPairs (fun p q => snd q + 1 < fst p) (snd (fold_left range_step todo (prev, rs))).
Proof.
  induction todo as [|v todo IH]; intros prev rs I S F; [exact F|].
  apply StronglySorted_inv in S. destruct S as [S FL]. pose proof (Forall_inv FL) as L.
  pose proof (range_step_gap prev rs v I L F) as G. destruct (range_step_inv prev rs v I ltac:(lia)) as (I' & E & _).
  cbn [fold_left]. destruct (range_step (prev, rs) v) as [v' rs']. cbn [fst snd] in *. subst v'. now apply IH.
Qed.
Lemma ford_app {A} (R : A -> A -> Prop) l x : ForallOrdPairs R l -> (forall y, In y l -> R y x) -> ForallOrdPairs R (l ++ [x]).
Proof.
  induction 1 as [|y l FY F IH]; intros H; cbn [app]; [repeat constructor|].
  constructor; [apply Forall_app; split; [exact FY|constructor; [apply H; now left|constructor]]|]. apply IH. intros z Z0. apply H. now right.
Qed.
Lemma ford_rev {A} (R : A -> A -> Prop) l : ForallOrdPairs (fun a b => R b a) l -> ForallOrdPairs R (rev l).
Proof.
  induction 1 as [|x l FX F IH]; [constructor|]. cbn [rev]. apply ford_app; [exact IH|].
  intros y Y. apply in_rev in Y. rewrite Forall_forall in FX. now apply FX.
Qed.
Lemma z_sorted_lt l : NoDup l -> StronglySorted (fun a b => (a <=? b) = true) l -> StronglySorted Z.lt l.
Proof.
  induction l as [|x l IH]; intros ND S; [constructor|]. inversion ND as [|? ? N1 N2]; subst. apply StronglySorted_inv in S. destruct S as [S F].
  constructor; [apply IH; assumption|]. rewrite Forall_forall in *. intros y Y. specialize (F y Y). apply Z.leb_le in F.
  assert (x <> y) by (intros ->; contradiction). lia.
Qed.
Theorem C46_maximal ids rs : NoDup ids -> create_mux_ranges ids = Ok rs -> ForallOrdPairs (fun p q => snd p + 1 < fst q) rs.
Proof.
  intros ND. unfold create_mux_ranges. pose proof (z_sorted ids) as S. pose proof (sorted_py_perm Z.leb ids) as P.
  destruct (sorted_py Z.leb ids) as [|first rest]; [discriminate|]. intros E. apply (f_equal (fun r => match r with Ok x => x | Err _ => [] end)) in E. subst rs.
  apply (z_sorted_lt _ (Permutation_NoDup (Permutation_sym P) ND)) in S.
  apply ford_rev. change (fold_left range_step (first :: rest) (first, [])) with (fold_left range_step rest (range_step (first, []) first)).
  rewrite mux_first. apply range_fold_gap; [|exact S|repeat constructor].
  split; [eauto|]. intros lo hi [H|[]]. apply pair_equal_spec in H. lia.
Qed.
(** A signal without ids has no ranges: the caller must not ask for them. *)
Example ex_no_ids : create_mux_ranges [] = Err IndexError. Proof. reflexivity. Qed.
Example ex_ranges : create_mux_ranges [7; 1; 2; 9; 3; 5; 8] = Ok [(1, 3); (5, 5); (7, 9)]. Proof. vm_compute. reflexivity. Qed.
Example ex_ranges_dup : create_mux_ranges [1; 1; 2] = Ok [(1, 1); (1, 2)]. Proof. vm_compute. reflexivity. Qed.

(** ** C48: frame ids *)
(** The number in the file determines the frame id and whether it is extended. *)
Theorem C48_frame_id id ext : 0 <= id < 2 ^ 31 -> load_frame_id (get_dbc_frame_id id ext) = (id, ext).
Proof.
  intros H. unfold load_frame_id, get_dbc_frame_id.
  assert (M : 2 ^ 31 - 1 = Z.ones 31) by reflexivity. rewrite M.
  assert (L : Z.land id (2 ^ 31) = 0).
  { apply Z.bits_inj'. intros n N. rewrite Z.land_spec, Z.bits_0. destruct (Z.eq_dec n 31) as [->|D].
    - rewrite (Z.bits_above_log2 id 31); [reflexivity|lia|]. destruct (Z.eq_dec id 0) as [->|NZ]; [reflexivity|]. apply Z.log2_lt_pow2; lia.
    - rewrite (Z.pow2_bits_false 31 n) by lia. apply andb_false_r. }
  destruct ext.
  - f_equal.
    + rewrite Z.land_lor_distr_l, !Z.land_ones by lia. rewrite Z_mod_same_full, Z.lor_0_r. apply Z.mod_small. lia.
    + rewrite Z.land_lor_distr_l, L, Z.lor_0_l, Z.land_diag. reflexivity.
  - f_equal.
    + rewrite Z.land_ones by lia. apply Z.mod_small. lia.
    + rewrite L. reflexivity.
Qed.
(** So messages with different ids never share a number in the file. *)
Theorem C48_frame_id_distinct id ext id' ext' : 0 <= id < 2 ^ 31 -> 0 <= id' < 2 ^ 31 ->
  get_dbc_frame_id id ext = get_dbc_frame_id id' ext' -> id = id' /\ ext = ext'.
Proof.
  intros H H' E. apply (f_equal load_frame_id) in E. rewrite !C48_frame_id in E by assumption. now apply pair_equal_spec in E.
Qed.
Example ex_frame_id : get_dbc_frame_id 496 false = 496 /\ get_dbc_frame_id 0x18feca00 true = 2566834688 /\ load_frame_id 2566834688 = (0x18feca00, true).
Proof. vm_compute. auto. Qed.

(** ** Names *)
Lemma is_word_us : is_word underscore = true. Proof. reflexivity. Qed.
(** The name that is written is a non-empty word that does not start with a digit, and words that do not start with a digit are kept. *)
Theorem C45_word name n : get_dbc_name name = Ok n ->
  forallb is_word n = true /\ match n with c :: _ => is_digit c = false | [] => False end.
Proof.
  unfold get_dbc_name. set (l := map (fun c => if is_word c then c else underscore) name).
  assert (W : forallb is_word l = true).
  { unfold l. rewrite forallb_forall. intros x X. apply in_map_iff in X. destruct X as (c & <- & _). destruct (is_word c) eqn:E; [exact E|reflexivity]. }
  clearbody l. destruct l as [|c r]; [discriminate|]. intros E. injection E as <-.
  destruct (is_digit c) eqn:D; [|auto]. cbn [forallb]. rewrite is_word_us. cbn [forallb] in W. auto.
Qed.
Theorem C45_word_kept name : name <> [] -> forallb is_word name = true -> match name with c :: _ => is_digit c = false | [] => True end ->
  get_dbc_name name = Ok name.
Proof.
  intros NE W D. unfold get_dbc_name.
  assert (E : map (fun c => if is_word c then c else underscore) name = name).
  { clear NE D. induction name as [|c r IH]; [reflexivity|]. cbn [forallb] in W. apply andb_true_iff in W. destruct W as [W1 W2].
    cbn [map]. rewrite W1, IH by exact W2. reflexivity. }
  rewrite E. destruct name as [|c r]; [congruence|]. now rewrite D.
Qed.
(** Different names may become the same. *)
Theorem C45_special_characters_refuted : exists a b, a <> b /\ get_dbc_name a = get_dbc_name b /\ is_ok (get_dbc_name a) = true.
Proof. exists (txt "a b"), (txt "a-b"). split; [discriminate|]. split; reflexivity. Qed.
Example ex_dbc_name : get_dbc_name (txt "2 x-y") = Ok (txt "_2_x_y"). Proof. reflexivity. Qed.
