(** Prop_Cache: C44, the load cache; C55, choosing the file format. *)
From Coq Require Import Ascii.
From Verif Require Import Base DictLemmas CSource CNames Cache.
Local Open Scope string_scope.
Local Open Scope Z_scope.
Local Open Scope list_scope.

Lemma chars_spec (a b : chars) : reflect (a = b) (chars_eqb a b).
Proof. unfold chars_eqb; destruct (list_eq_dec ascii_dec a b); constructor; assumption. Qed.
Lemma key_spec (a b : option key) : reflect (a = b) (key_eqb a b).
Proof. unfold key_eqb; destruct (key_eq_dec a b); constructor; assumption. Qed.

Section In.
  Context {K V : Type} (eqb : K -> K -> bool) (spec : forall a b, reflect (a = b) (eqb a b)).
  Lemma dset_in (d : list (K * V)) k v x : In x (dset eqb d k v) -> x = (k, v) \/ In x d.
  Proof.
    induction d as [|[k' v'] d IH]; cbn [dset]; intros H.
    - destruct H as [<-|[]]; left; reflexivity.
    - destruct (spec k' k) as [E|E]; destruct H as [H|H].
      + subst; left; reflexivity.
      + right; right; exact H.
      + right; left; exact H.
      + destruct (IH H) as [->|I]; [left; reflexivity|right; right; exact I].
  Qed.
  Lemma ddel_in (d : list (K * V)) k x : In x (ddel eqb d k) -> In x d.
  Proof.
    induction d as [|[k' v'] d IH]; cbn [ddel]; intros H; [exact H|].
    destruct (eqb k' k); [right; exact H|]. destruct H as [H|H]; [left; exact H|right; exact (IH H)].
  Qed.
End In.

Section Transparency.
  Variables candb diagdb content text : Type.
  Variable load_can : format -> option Z -> bool -> sort_arg -> text -> result candb.
  Variable prune : candb -> result candb.
  Variable load_cdd : text -> result diagdb.
  Variable decode_text : chars -> content -> option text.

  Notation db := (db candb diagdb).
  Notation outcome := (outcome candb diagdb).
  Notation file_op := (file_op content).
  Notation event := (event content).
  Notation files := (files content).
  Notation caches := (caches candb diagdb).
  Notation load_file := (load_file candb diagdb content text load_can prune load_cdd decode_text).
  Notation read_file := (read_file candb diagdb content text load_can prune load_cdd decode_text).
  Notation step := (step candb diagdb content text load_can prune load_cdd decode_text).
  Notation run := (run candb diagdb content text load_can prune load_cdd decode_text).
  Notation load_string := (load_string candb diagdb text load_can prune load_cdd).
  Notation apply_ops := (apply_ops content).

  (** Loading without a cache, from the given file system *)
  Definition plain (fs : files) (a : args) : outcome := fst (load_file fs fs [] None a).

  (** The file modifications of a history, in order *)
  Definition ops_of (h : list event) : list file_op :=
    flat_map (fun e => match e with File _ o => [o] | Load _ _ _ during => during | _ => [] end) h.
  (** Loads of this history see no modification while they run. *)
  Definition undisturbed (h : list event) : Prop := forall dir a during, In (Load content dir a during) h -> during = [].
  (** The modification time tells apart the contents a file ever had. *)
  Definition mtime_faithful (ops : list file_op) : Prop :=
    forall f m c c', In (Write content f c m) ops -> In (Write content f c' m) ops -> c = c'.
  (** Every modification of a file gives it a modification time later than all it had before. *)
  Definition mtime_increases (ops : list file_op) : Prop :=
    forall pre f c m post c' m', ops = pre ++ Write content f c m :: post -> In (Write content f c' m') pre -> m' < m.
  Definition library_sort (a : args) : Prop := match a_sort a with SortUser _ _ => False | _ => True end.

  (** The database a cache entry with this key should hold, given the content of the file *)
  Definition value_for (k : key) (c : content) : outcome :=
    match decode_text (k_encoding k) c with
    | None => inr BadEncoding
    | Some t => load_string t (Some (k_format k)) (k_mask k) (k_prune k) (k_strict k) (k_sort k)
    end.

  Lemma read_value (fs : files) fmt enc a c m m' :
    dget chars_eqb fs (a_file a) = Some (c, m) ->
    read_file fs fmt enc a =
    value_for {| k_format := fmt; k_encoding := enc; k_mask := a_mask a; k_prune := a_prune a; k_strict := a_strict a;
                 k_sort := a_sort a; k_file := a_file a; k_mtime := m' |} c.
  Proof. intros E; unfold Cache.read_file; rewrite E; reflexivity. Qed.

  Definition entry (cs : caches) (k : option key) (d : db) : Prop :=
    exists dir c, In (dir, c) cs /\ In (k, d) c.
  Lemma cache_of_entry cs dir k d : In (k, d) (cache_of candb diagdb cs dir) -> entry cs k d.
  Proof.
    unfold cache_of; destruct (dget chars_eqb cs dir) as [c|] eqn:E; [|intros []].
    intros I; exists dir, c; split; [exact (get_in _ chars_spec _ _ _ E)|exact I].
  Qed.
  Lemma entry_set cs dir c k d : entry (dset chars_eqb cs dir c) k d -> In (k, d) c \/ entry cs k d.
  Proof.
    intros (dir' & c' & I & J). destruct (dset_in _ chars_spec _ _ _ _ I) as [E|E].
    - injection E as -> ->; left; exact J.
    - right; exists dir', c'; split; assumption.
  Qed.
  Lemma entry_del cs dir k d : entry (ddel chars_eqb cs dir) k d -> entry cs k d.
  Proof. intros (dir' & c' & I & J). exists dir', c'; split; [exact (ddel_in _ _ _ _ I)|exact J]. Qed.

  (** Every entry after a load was there before or was just read. *)
  Lemma load_entries fs fs' cs dir a k d :
    entry (snd (load_file fs fs' cs dir a)) (Some k) d -> entry cs (Some k) d \/
    (exists c m, dget chars_eqb fs (a_file a) = Some (c, m) /\ k_file k = a_file a /\ k_mtime k = m /\
       exists c' m', dget chars_eqb fs' (a_file a) = Some (c', m') /\ value_for k c' = inl d).
  Proof.
    unfold Cache.load_file. destruct (resolve (a_format a) (a_encoding a) (a_file a)) as [fmt enc].
    destruct dir as [dir|]; [|left; assumption].
    destruct (cache_key content fs fmt enc a) as [ko|e] eqn:CK; [|left; assumption].
    destruct (dget key_eqb (cache_of candb diagdb cs dir) ko); [left; assumption|].
    destruct (read_file fs' fmt enc a) as [d'|e] eqn:R; [|left; assumption].
    destruct (can_pickle candb diagdb d' a); cbn [snd]; [|left; assumption].
    intros H; destruct (entry_set _ _ _ _ _ H) as [I|I]; [|left; exact I].
    destruct (dset_in _ key_spec _ _ _ _ I) as [E|E]; [|left; exact (cache_of_entry _ _ _ _ E)].
    injection E as <- <-; right.
    unfold cache_key in CK.
    assert (L : exists c m, dget chars_eqb fs (a_file a) = Some (c, m) /\ k = {| k_format := fmt; k_encoding := enc; k_mask := a_mask a;
               k_prune := a_prune a; k_strict := a_strict a; k_sort := a_sort a; k_file := a_file a; k_mtime := m |}).
    { destruct (a_sort a) eqn:SA; try discriminate CK;
        (destruct (dget chars_eqb fs (a_file a)) as [[c m]|]; [|discriminate CK]; injection CK as <-; exists c, m; split; reflexivity). }
    destruct L as (c & m & G & ->). exists c, m; split; [exact G|]; split; [reflexivity|]; split; [reflexivity|].
    destruct (dget chars_eqb fs' (a_file a)) as [[c' m']|] eqn:G'.
    - exists c', m'; split; [reflexivity|]. rewrite <- (read_value fs' fmt enc a c' m' m G'); exact R.
    - unfold Cache.read_file in R; rewrite G' in R; discriminate.
  Qed.

  (** A load answers with an entry of the cache or reads the file. *)
  Lemma load_result fs fs' cs dir a :
    library_sort a ->
    fst (load_file fs fs' cs dir a) = plain fs' a \/
    fst (load_file fs fs' cs dir a) = plain fs a \/
    (exists c m k d, dget chars_eqb fs (a_file a) = Some (c, m) /\ k_file k = a_file a /\ k_mtime k = m /\ entry cs (Some k) d /\
       fst (load_file fs fs' cs dir a) = inl d /\ plain fs a = value_for k c).
  Proof.
    intros LS. unfold plain, Cache.load_file. destruct (resolve (a_format a) (a_encoding a) (a_file a)) as [fmt enc].
    destruct dir as [dir|]; [|left; reflexivity].
    unfold cache_key; unfold library_sort in LS.
    destruct (a_sort a) eqn:SA; try contradiction;
      (destruct (dget chars_eqb fs (a_file a)) as [[c m]|] eqn:G;
       [|right; left; unfold Cache.read_file; rewrite G; reflexivity];
       match goal with |- context [dget key_eqb _ (Some ?k)] => destruct (dget key_eqb (cache_of candb diagdb cs dir) (Some k)) as [d|] eqn:D end;
       [right; right; do 4 eexists; split; [reflexivity|]; split; [|split; [|split; [|split; [reflexivity|]]]];
        [..|cbn [fst]; rewrite (read_value fs fmt enc a c m m G), SA; reflexivity];
        [reflexivity|reflexivity|exact (cache_of_entry _ _ _ _ (get_in _ key_spec _ _ _ D))]
       |left; destruct (read_file fs' fmt enc a) as [d'|e]; [|reflexivity]; unfold can_pickle; rewrite SA; destruct d'; reflexivity]).
  Qed.

  (** *** Files *)
  Lemma files_written ops : forall fs, (forall f c m, In (f, (c, m)) fs -> In (Write content f c m) ops) ->
    forall more f c m, In (f, (c, m)) (apply_ops fs more) -> In (Write content f c m) (ops ++ more).
  Proof.
    intros fs H more; revert ops fs H; induction more as [|o more IH]; intros ops fs H f c m I.
    - rewrite app_nil_r; exact (H _ _ _ I).
    - replace (ops ++ o :: more) with ((ops ++ [o]) ++ more) by (rewrite <- app_assoc; reflexivity).
      apply (IH (ops ++ [o]) (apply_op content fs o)); [|exact I].
      intros f' c' m' J; apply in_or_app. destruct o as [g c0 m0|g]; cbn [apply_op] in J.
      + destruct (dset_in _ chars_spec _ _ _ _ J) as [E|E]; [injection E as -> -> ->; right; left; reflexivity|left; exact (H _ _ _ E)].
      + left; exact (H _ _ _ (ddel_in _ _ _ _ J)).
  Qed.
  Lemma run_snoc h e : run (h ++ [e]) = step (run h) e.
  Proof. unfold Cache.run; rewrite fold_left_app; reflexivity. Qed.
  Lemma ops_snoc h e : ops_of (h ++ [e]) = ops_of h ++ ops_of [e].
  Proof. apply flat_map_app. Qed.
  Lemma run_files h : fst (run h) = apply_ops [] (ops_of h).
  Proof.
    induction h as [|e h IH] using rev_ind; [reflexivity|].
    rewrite run_snoc, ops_snoc. unfold Cache.apply_ops; rewrite fold_left_app; fold (apply_ops [] (ops_of h)); rewrite <- IH.
    destruct (run h) as [fs cs]; destruct e; cbn [step fst ops_of flat_map]; rewrite ?app_nil_r; reflexivity.
  Qed.
  Lemma run_written h f c m : In (f, (c, m)) (fst (run h)) -> In (Write content f c m) (ops_of h).
  Proof. rewrite run_files; intros I. exact (files_written [] [] ltac:(intros ? ? ? []) _ _ _ _ I). Qed.

  (** *** Faithful modification times *)
  Lemma run_entries h : undisturbed h -> mtime_faithful (ops_of h) -> forall k d, entry (snd (run h)) (Some k) d ->
    exists c, In (Write content (k_file k) c (k_mtime k)) (ops_of h) /\ value_for k c = inl d.
  Proof.
    induction h as [|e h IH] using rev_ind; intros U M k d.
    - intros (dir & c & [] & _).
    - rewrite run_snoc, ops_snoc.
      assert (U' : undisturbed h) by (intros dir a during I; exact (U dir a during (in_or_app _ _ _ (or_introl I)))).
      assert (M' : mtime_faithful (ops_of h)).
      { intros f m c c' I J; apply (M f m); rewrite ops_snoc; apply in_or_app; left; assumption. }
      specialize (IH U' M').
      assert (Old : entry (snd (run h)) (Some k) d -> exists c, In (Write content (k_file k) c (k_mtime k)) (ops_of h ++ ops_of [e]) /\ value_for k c = inl d).
      { intros E; destruct (IH _ _ E) as (c & I & V); exists c; split; [apply in_or_app; left; exact I|exact V]. }
      pose proof (run_written h) as W.
      destruct (run h) as [fs cs] eqn:R; cbn [fst snd] in *. destruct e as [o|dir a during|dir k'|dir]; cbn [step snd].
      + exact Old.
      + assert (D : during = []) by (apply (U dir a), in_or_app; right; left; reflexivity); subst during.
        change (apply_ops fs []) with fs. intros E.
        destruct (load_entries _ _ _ _ _ _ _ E) as [E'|(c & m & G & F & T & c' & m' & G' & V)]; [exact (Old E')|].
        rewrite G in G'; injection G' as <- <-. exists c; split; [|exact V].
        apply in_or_app; left; rewrite F, T; exact (W _ _ _ (get_in _ chars_spec _ _ _ G)).
      + intros E; destruct (entry_set _ _ _ _ _ E) as [I|I]; [|exact (Old I)].
        exact (Old (cache_of_entry _ _ _ _ (ddel_in _ _ _ _ I))).
      + intros E; exact (Old (entry_del _ _ _ _ E)).
  Qed.

  (** C44: after any history of modifications, loads with any arguments, evictions and cleared caches, loading with
      a cache directory gives what loading without one gives, provided the modification time tells the contents of a
      file apart.  Loads with a sort function of the caller may occur in the history but not be the load in question. *)
  Theorem C44_transparent : forall h dir a,
    undisturbed h -> mtime_faithful (ops_of h) -> library_sort a ->
    fst (load_file (fst (run h)) (fst (run h)) (snd (run h)) dir a) = plain (fst (run h)) a.
  Proof.
    intros h dir a U M LS.
    destruct (load_result (fst (run h)) (fst (run h)) (snd (run h)) dir a LS) as [E|[E|(c & m & k & d & G & F & T & E & R & P)]]; [exact E|exact E|].
    destruct (run_entries h U M k d E) as (c' & W & V).
    rewrite R, P, <- V. f_equal. rewrite F, T in W.
    exact (M _ _ _ _ W (run_written h _ _ _ (get_in _ chars_spec _ _ _ G))).
  Qed.

  (** *** Increasing modification times, files modified during loads *)
  Lemma increases_app ops more : mtime_increases (ops ++ more) -> mtime_increases ops.
  Proof. intros H pre f c m post c' m' E I; apply (H pre f c m (post ++ more) c' m'); [rewrite E, <- app_assoc; reflexivity|exact I]. Qed.
  Lemma increases_faithful ops : mtime_increases ops -> mtime_faithful ops.
  Proof.
    intros H f m c c' I J. destruct (in_split _ _ I) as (pre & post & E).
    rewrite E in J; apply in_app_or in J; destruct J as [J|[J|J]].
    - pose proof (H _ _ _ _ _ _ _ E J); lia.
    - injection J as ->; reflexivity.
    - destruct (in_split _ _ J) as (p1 & p2 & E2).
      rewrite E2 in E. assert (m < m); [|lia].
      apply (H (pre ++ Write content f c m :: p1) f c' m p2 c m); [rewrite E, <- app_assoc; reflexivity|apply in_or_app; right; left; reflexivity].
  Qed.
  Lemma apply_nodup ops : forall fs : files, NoDup (map fst fs) -> NoDup (map fst (apply_ops fs ops)).
  Proof.
    induction ops as [|o ops IH]; intros fs H; [exact H|]. apply IH.
    destruct o; cbn [apply_op]; [apply (set_nodup _ chars_spec)|apply (del_nodup chars_eqb)]; exact H.
  Qed.
  (** The modification time of a file is the latest it was written with. *)
  Lemma files_latest ops : mtime_increases ops -> forall f c m, dget chars_eqb (apply_ops [] ops) f = Some (c, m) ->
    forall c' m', In (Write content f c' m') ops -> m' <= m.
  Proof.
    induction ops as [|o ops IH] using rev_ind; intros H f c m G c' m' I; [destruct I|].
    unfold Cache.apply_ops in G; rewrite fold_left_app in G; cbn [fold_left] in G; fold (apply_ops [] ops) in G.
    specialize (IH (increases_app _ _ H)).
    apply in_app_or in I; destruct o as [g c0 m0|g]; cbn [apply_op] in G.
    - rewrite (get_set _ chars_spec) in G; destruct (chars_spec g f) as [->|N].
      + injection G as <- <-; destruct I as [I|[I|[]]]; [|injection I; lia].
        pose proof (H ops f c0 m0 [] c' m' eq_refl I); lia.
      + destruct I as [I|[I|[]]]; [exact (IH _ _ _ G _ _ I)|injection I; congruence].
    - rewrite (get_del _ chars_spec) in G by (apply apply_nodup; constructor).
      destruct (chars_eqb g f); [discriminate|]. destruct I as [I|[I|[]]]; [exact (IH _ _ _ G _ _ I)|discriminate].
  Qed.

  (** An entry is right, or a later version of the file exists. *)
  Lemma run_entries_increasing h : mtime_increases (ops_of h) -> forall k d, entry (snd (run h)) (Some k) d ->
    (exists c, In (Write content (k_file k) c (k_mtime k)) (ops_of h) /\ value_for k c = inl d) \/
    (exists c m, In (Write content (k_file k) c m) (ops_of h) /\ k_mtime k < m).
  Proof.
    induction h as [|e h IH] using rev_ind; intros M k d.
    - intros (dir & c & [] & _).
    - rewrite run_snoc. pose proof M as M0. rewrite ops_snoc in M |- *. specialize (IH (increases_app _ _ M)).
      assert (Old : entry (snd (run h)) (Some k) d ->
        (exists c, In (Write content (k_file k) c (k_mtime k)) (ops_of h ++ ops_of [e]) /\ value_for k c = inl d) \/
        (exists c m, In (Write content (k_file k) c m) (ops_of h ++ ops_of [e]) /\ k_mtime k < m)).
      { intros E; destruct (IH _ _ E) as [(c & I & V)|(c & m & I & L)]; [left; exists c|right; exists c, m];
          (split; [apply in_or_app; left; exact I|assumption]). }
      pose proof (run_written h) as W. pose proof (run_files h) as RF.
      destruct (run h) as [fs cs] eqn:R; cbn [fst snd] in *. destruct e as [o|dir a during|dir k'|dir]; cbn [step snd].
      + exact Old.
      + intros E.
        destruct (load_entries _ _ _ _ _ _ _ E) as [E'|(c & m & G & F & T & c' & m' & G' & V)]; [exact (Old E')|].
        cbn [ops_of flat_map] in M |- *; rewrite app_nil_r in M |- *.
        pose proof (W _ _ _ (get_in _ chars_spec _ _ _ G)) as W1.
        pose proof (files_written (ops_of h) fs W during _ _ _ (get_in _ chars_spec _ _ _ G')) as W2.
        assert (L : m <= m').
        { refine (files_latest (ops_of h ++ during) M (a_file a) c' m' _ c m (in_or_app _ _ _ (or_introl W1))).
          rewrite <- G', RF; unfold Cache.apply_ops; rewrite fold_left_app; reflexivity. }
        rewrite F, T. destruct (Z.eq_dec m m') as [<-|N].
        * left; exists c'; split; assumption.
        * right; exists c', m'; split; [exact W2|lia].
      + intros E; destruct (entry_set _ _ _ _ _ E) as [I|I]; [|exact (Old I)].
        exact (Old (cache_of_entry _ _ _ _ (ddel_in _ _ _ _ I))).
      + intros E; exact (Old (entry_del _ _ _ _ E)).
  Qed.

  (** C44: files may also be modified while loads run, if their modification times only increase: a load then gives
      what loading without cache gives at the time it starts or at the time it opens the file. *)
  Theorem C44_transparent_during : forall h dir a during,
    mtime_increases (ops_of h ++ during) -> library_sort a ->
    let fs := fst (run h) in
    let r := fst (load_file fs (apply_ops fs during) (snd (run h)) dir a) in
    r = plain fs a \/ r = plain (apply_ops fs during) a.
  Proof.
    intros h dir a during M LS; cbn zeta.
    destruct (load_result (fst (run h)) (apply_ops (fst (run h)) during) (snd (run h)) dir a LS) as [E|[E|(c & m & k & d & G & F & T & E & R & P)]];
      [right; exact E|left; exact E|left].
    rewrite R, P. pose proof (increases_app _ _ M) as M'.
    pose proof (run_written h _ _ _ (get_in _ chars_spec _ _ _ G)) as W0.
    rewrite run_files in G.
    destruct (run_entries_increasing h M' k d E) as [(c' & W & V)|(c' & m' & W & L)].
    - rewrite <- V; f_equal. rewrite F, T in W. exact (increases_faithful _ M' _ _ _ _ W W0).
    - exfalso. rewrite F in W. pose proof (files_latest _ M' _ _ _ G _ _ W); lia.
  Qed.

  (** *** Where the cache is not transparent *)

  (** C44 refuted for a sort function of the caller: all such loads share one cache entry, so after one of them
      every other returns its database, whatever the file, the format, the mask, the sort function. *)
  Theorem C44_user_sort_refuted : forall fs dir a b d id id',
    a_sort a = SortUser id true -> a_sort b = SortUser id' true -> plain fs a = inl d ->
    fst (load_file fs fs (snd (load_file fs fs [] (Some dir) a)) (Some dir) b) = inl d.
  Proof.
    intros fs dir a b d id id' SA SB P. unfold plain, Cache.load_file in *.
    destruct (resolve (a_format a) (a_encoding a) (a_file a)) as [fmt enc].
    destruct (resolve (a_format b) (a_encoding b) (a_file b)) as [fmt' enc'].
    unfold cache_key; rewrite SA, SB. change (cache_of candb diagdb [] dir) with (@nil (option key * db)).
    cbn [dget fst snd] in *. rewrite P. unfold can_pickle at 1; rewrite SA. 
    replace (match d with CanDb _ _ _ => true | DiagDb _ _ _ => true end) with true by (destruct d; reflexivity).
    cbn [snd dset]. unfold cache_of at 1; cbn [dget].
    destruct (chars_spec dir dir) as [_|N]; [|congruence]. cbn [dset dget].
    destruct (key_spec None None) as [_|N]; [reflexivity|congruence].
  Qed.
  (** C44 refuted for a sort function that cannot be pickled: the load raises although the file is fine. *)
  Theorem C44_local_sort_refuted : forall fs dir a d id,
    a_sort a = SortUser id false -> plain fs a = inl (CanDb candb diagdb d) ->
    fst (load_file fs fs [] (Some dir) a) = inr Unpicklable.
  Proof.
    intros fs dir a d id SA P. unfold plain, Cache.load_file in *.
    destruct (resolve (a_format a) (a_encoding a) (a_file a)) as [fmt enc].
    unfold cache_key; rewrite SA. change (cache_of candb diagdb [] dir) with (@nil (option key * db)).
    cbn [dget fst] in *. rewrite P. unfold can_pickle; rewrite SA; reflexivity.
  Qed.

  (** *** C55: formats *)

  (** What one format makes of a text: the diagnostics database for cdd, otherwise the CAN database, its choices pruned if asked for. *)
  Inductive reads (mask : option Z) (p strict : bool) (sort : sort_arg) (s : text) : format -> result db -> Prop :=
  | reads_cdd d : load_cdd s = Ok d -> reads mask p strict sort s Cdd (Ok (DiagDb candb diagdb d))
  | reads_cdd_error e : load_cdd s = Err e -> reads mask p strict sort s Cdd (Err e)
  | reads_plain f d : f <> Cdd -> p = false -> load_can f mask strict sort s = Ok d -> reads mask p strict sort s f (Ok (CanDb candb diagdb d))
  | reads_pruned f d d' : f <> Cdd -> p = true -> load_can f mask strict sort s = Ok d -> prune d = Ok d' -> reads mask p strict sort s f (Ok (CanDb candb diagdb d'))
  | reads_error f e : f <> Cdd -> load_can f mask strict sort s = Err e -> reads mask p strict sort s f (Err e)
  | reads_prune_error f d e : f <> Cdd -> p = true -> load_can f mask strict sort s = Ok d -> prune d = Err e -> reads mask p strict sort s f (Err e).
  Lemma reads_iff mask p strict sort s f r : reads mask p strict sort s f r <-> try_format candb diagdb text load_can prune load_cdd mask p strict sort s f = r.
  Proof.
    split.
    - intros [d H|e H|g d N -> H|g d d' N -> H K|g e N H|g d e N -> H K]; cbn [try_format]; try (rewrite H; reflexivity); destruct g; try (now contradiction N); cbn [try_format]; rewrite H; cbn [bind]; try rewrite K; reflexivity.
    - intros <-. destruct f; cbn [try_format]; try (destruct (load_can _ mask strict sort s) as [d|e] eqn:E; cbn [bind]; [|eapply reads_error; [discriminate|exact E]]; destruct p;
        [destruct (prune d) as [d'|e] eqn:P; cbn [bind]; [eapply reads_pruned; eauto; discriminate|eapply reads_prune_error; eauto; discriminate]|eapply reads_plain; eauto; discriminate]).
      destruct (load_cdd s) as [d|e] eqn:E; cbn [bind]; [now apply reads_cdd|now apply reads_cdd_error].
  Qed.

  (** C55: without a format, the first of arxml, dbc, kcd, sym, cdd that loads the text gives the result. *)
  Theorem C55_first_format_wins : forall s mask p strict sort pre f post d,
    [Arxml; Dbc; Kcd; Sym; Cdd] = pre ++ f :: post ->
    (forall g, In g pre -> exists e, reads mask p strict sort s g (Err e)) ->
    reads mask p strict sort s f (Ok d) ->
    load_string s None mask p strict sort = inl d.
  Proof.
    intros s mask p strict sort pre f post d F N Y. apply reads_iff in Y. unfold Cache.load_string, formats; rewrite F.
    assert (A : attempts candb diagdb (try_format candb diagdb text load_can prune load_cdd mask p strict sort s) (pre ++ f :: post) = inl d).
    { clear F; induction pre as [|g pre IH]; cbn [attempts app].
      - rewrite Y; reflexivity.
      - destruct (N g (or_introl eq_refl)) as (e & RE). apply reads_iff in RE. rewrite RE. rewrite IH; [reflexivity|]. intros g' I; exact (N g' (or_intror I)). }
    destruct (pre ++ f :: post); [discriminate|]. rewrite A; reflexivity.
  Qed.
  (** C55: without a format, loading fails exactly if every format fails, with the five errors. *)
  Theorem C55_no_format : forall s mask p strict sort es,
    load_string s None mask p strict sort = inr (Unsupported es) <->
    map fst es = [Arxml; Dbc; Kcd; Sym; Cdd] /\
    forall f e, In (f, e) es -> reads mask p strict sort s f (Err e).
  Proof.
    intros s mask p strict sort es.
    assert (RI : (forall f e, In (f, e) es -> reads mask p strict sort s f (Err e)) <-> (forall f e, In (f, e) es -> try_format candb diagdb text load_can prune load_cdd mask p strict sort s f = Err e)) by (split; intros H f e I; apply reads_iff, H, I).
    rewrite RI. clear RI. unfold Cache.load_string, formats.
    set (try := try_format candb diagdb text load_can prune load_cdd mask p strict sort s).
    assert (A : forall fs, attempts candb diagdb try fs = inr es <-> map fst es = fs /\ forall f e, In (f, e) es -> try f = Err e).
    { intros fs; revert es; induction fs as [|f fs IH]; intros es; cbn [attempts].
      - split; [intros E; injection E as <-; split; [reflexivity|intros ? ? []]|intros [E _]; destruct es; [reflexivity|discriminate]].
      - destruct (try f) as [d|e] eqn:T.
        + split; [discriminate|]. intros [E H]; destruct es as [|[g x] es]; [discriminate|].
          injection E as -> E. specialize (H f x (or_introl eq_refl)); congruence.
        + destruct (attempts candb diagdb try fs) as [d|es'] eqn:At.
          * split; [discriminate|]. intros [E H]; destruct es as [|[g x] es]; [discriminate|].
            injection E as -> E. assert (X : (inl d : (db + list (format * exn))%type) = inr es); [apply IH; split; [exact E|intros f' e' I; exact (H f' e' (or_intror I))]|discriminate].
          * split.
            -- intros E; injection E as <-. destruct (proj1 (IH es') eq_refl) as [E1 E2]. split; [cbn [map fst]; rewrite E1; reflexivity|].
               intros f' e' [I|I]; [injection I as <- <-; exact T|exact (E2 _ _ I)].
            -- intros [E H]; destruct es as [|[g x] es]; [discriminate|]. injection E as -> E.
               pose proof (H f x (or_introl eq_refl)) as X; rewrite T in X; injection X as ->.
               assert (Y : (inr es' : (db + list (format * exn))%type) = inr es); [apply IH; split; [exact E|intros f' e' I; exact (H f' e' (or_intror I))]|injection Y as ->; reflexivity]. }
    rewrite <- A. destruct (attempts candb diagdb try [Arxml; Dbc; Kcd; Sym; Cdd]); split; intros E; try discriminate; injection E as ->; reflexivity.
  Qed.
  (** C55: with a format only that one is tried; a name of no format is a ValueError. *)
  Theorem C55_given_format : forall s f mask p strict sort,
    (forall d, load_string s (Some (format_name f)) mask p strict sort = inl d <-> reads mask p strict sort s f (Ok d)) /\
    (forall x, load_string s (Some (format_name f)) mask p strict sort = inr x <-> exists e, x = Unsupported [(f, e)] /\ reads mask p strict sort s f (Err e)).
  Proof.
    intros s f mask p strict sort. unfold Cache.load_string.
    replace (filter (fun g => chars_eqb (format_name g) (format_name f)) formats) with [f] by (destruct f; vm_compute; reflexivity).
    cbn [attempts]. destruct (try_format candb diagdb text load_can prune load_cdd mask p strict sort s f) as [d|e] eqn:E.
    - split; [intros d'; rewrite reads_iff, E; split; congruence|]. intros x. split; [discriminate|]. intros (e & _ & R). apply reads_iff in R. congruence.
    - split; [intros d'; rewrite reads_iff, E; split; discriminate|]. intros x. split; [intros H; injection H as <-; exists e; split; [reflexivity|now apply reads_iff]|]. intros (e' & -> & R). apply reads_iff in R. congruence.
  Qed.
  Theorem C55_bad_format : forall s n mask p strict sort,
    load_string s (Some n) mask p strict sort = inr BadFormat <-> ~ In n (map format_name [Arxml; Dbc; Kcd; Sym; Cdd]).
  Proof.
    intros s n mask p strict sort. split.
    - intros E I; apply in_map_iff in I; destruct I as (f & <- & _). apply (proj2 (C55_given_format s f mask p strict sort)) in E. destruct E as (e & X & _). discriminate X.
    - intros N. unfold Cache.load_string.
      assert (F : filter (fun f => chars_eqb (format_name f) n) formats = []).
      { assert (B : forall f, chars_eqb (format_name f) n = false).
        { intros f; destruct (chars_spec (format_name f) n) as [E|_]; [|reflexivity]. exfalso; apply N; rewrite <- E.
          apply in_map; destruct f; cbn [In]; tauto. }
        unfold formats; cbn [filter]; rewrite !B; reflexivity. }
      rewrite F; reflexivity.
  Qed.
End Transparency.

(** *** File name and encoding *)

Lemma after_last_none c l : ~ In c l -> after_last c l = None.
Proof.
  induction l as [|x l IH]; intros N; [reflexivity|]. cbn [after_last].
  rewrite IH by (intros I; apply N; right; exact I).
  destruct (Ascii.eqb_spec x c) as [->|]; [exfalso; apply N; left; reflexivity|reflexivity].
Qed.
Lemma after_last_app c a b : ~ In c b -> after_last c (a ++ c :: b) = Some b.
Proof.
  intros N; induction a as [|x a IH]; cbn [after_last app].
  - rewrite after_last_none by exact N. rewrite Ascii.eqb_refl; reflexivity.
  - rewrite IH; reflexivity.
Qed.
Lemma skip_dots_app b e : (exists x, In x b /\ x <> dot) -> exists b', skip_dots (b ++ e) = b' ++ e.
Proof.
  induction b as [|x b IH]; intros (y & I & N); [destruct I|]. cbn [skip_dots app].
  destruct (Ascii.eqb_spec x dot) as [->|].
  - apply IH; exists y; split; [destruct I as [E|I]; [congruence|exact I]|exact N].
  - exists (x :: b); reflexivity.
Qed.

(** C55: without a given format it is the extension of the file name in lower case, whatever precedes it. *)
Theorem C55_extension : forall dir base ext enc,
  (dir = [] \/ exists d, dir = d ++ [slash]) -> ~ In slash (base ++ dot :: ext) -> ~ In dot ext ->
  (exists x, In x base /\ x <> dot) ->
  fst (resolve None enc (dir ++ base ++ dot :: ext)) = map to_lower ext.
Proof.
  intros dir base ext enc D NS ND B. cbn [resolve fst]. unfold lower, extension.
  assert (BN : basename (dir ++ base ++ dot :: ext) = base ++ dot :: ext).
  { unfold basename. destruct D as [->|(d & ->)].
    - cbn [app]; rewrite after_last_none by exact NS; reflexivity.
    - rewrite <- app_assoc; cbn [app]; rewrite after_last_app by exact NS; reflexivity. }
  rewrite BN. destruct (skip_dots_app base (dot :: ext) B) as (b' & ->).
  rewrite after_last_app by exact ND; reflexivity.
Qed.
(** C55: a name without a dot in its last component, or with leading dots only, has no format. *)
Theorem C55_no_extension : forall dir base enc,
  (dir = [] \/ exists d, dir = d ++ [slash]) -> ~ In slash base -> ~ In dot (skip_dots base) ->
  fst (resolve None enc (dir ++ base)) = [].
Proof.
  intros dir base enc D NS ND. cbn [resolve fst]. unfold lower, extension.
  assert (BN : basename (dir ++ base) = base).
  { unfold basename. destruct D as [->|(d & ->)].
    - cbn [app]; rewrite after_last_none by exact NS; reflexivity.
    - rewrite <- app_assoc; cbn [app]; rewrite after_last_app by exact NS; reflexivity. }
  rewrite BN, after_last_none by exact ND; reflexivity.
Qed.
(** C55: the encoding, when not given, is cp1252 for dbc and sym and utf-8 otherwise. *)
Theorem C55_encoding : forall fmt f,
  let n := fst (resolve fmt None f) in
  (n = list_ascii_of_string "dbc" \/ n = list_ascii_of_string "sym" -> snd (resolve fmt None f) = list_ascii_of_string "cp1252") /\
  (n <> list_ascii_of_string "dbc" -> n <> list_ascii_of_string "sym" -> snd (resolve fmt None f) = list_ascii_of_string "utf-8").
Proof.
  intros fmt f n. assert (E : snd (resolve fmt None f) = if chars_in n [chars_of "dbc"; chars_of "sym"] then chars_of "cp1252" else chars_of "utf-8") by reflexivity.
  rewrite E; clearbody n; clear E. unfold chars_in; cbn [existsb]. split.
  - intros [->| ->]; vm_compute; reflexivity.
  - intros N1 N2. destruct (chars_spec n (chars_of "dbc")) as [X|_]; [contradiction (N1 X)|].
    destruct (chars_spec n (chars_of "sym")) as [X|_]; [contradiction (N2 X)|reflexivity].
Qed.
(** C55: given format and encoding are used as they are. *)
Theorem C55_given : forall x y f, resolve (Some x) (Some y) f = (x, y).
Proof. reflexivity. Qed.

(** The directory of the cache: a non-empty argument comes first, then a non-empty environment variable. *)
Theorem C44_cache_directory : forall available env dir d,
  cache_dir available env dir = Some d <->
  available = true /\ d <> [] /\ (dir = Some d \/ (dir = None \/ dir = Some []) /\ env = Some d).
Proof.
  intros available env dir d. unfold cache_dir. split.
  - destruct dir as [[|c r]|]; cbn [fst snd].
    + destruct env as [[|c r]|], available; cbn; intros H; try discriminate H. injection H as <-. repeat split; [discriminate|]. right. split; [now right|reflexivity].
    + destruct available; cbn; intros H; try discriminate H. injection H as <-. repeat split; [discriminate|]. now left.
    + destruct env as [[|c r]|], available; cbn; intros H; try discriminate H. injection H as <-. repeat split; [discriminate|]. right. split; [now left|reflexivity].
  - intros (-> & N & [->|[[->| ->] ->]]); destruct d; try (now contradiction N); reflexivity.
Qed.

(** *** Examples *)

(** A loader that accepts texts starting with V, as dbc *)
Definition ex_can (f : format) (mask : option Z) (strict : bool) (sort : sort_arg) (t : chars) : result (sort_arg * chars) :=
  match f, t with
  | Dbc, x :: r => if Ascii.eqb x "V" then Ok (sort, r) else Err ValueError
  | _, _ => Err ValueError
  end.
Definition ex_cdd (t : chars) : result unit := Err ValueError.
Definition ex_text (enc t : chars) : option chars := Some t.
Notation ex_load := (load_file (sort_arg * chars) unit chars chars ex_can (@Ok _) ex_cdd ex_text).
Notation ex_run := (run (sort_arg * chars) unit chars chars ex_can (@Ok _) ex_cdd ex_text).
Notation ex_plain := (plain (sort_arg * chars) unit chars chars ex_can (@Ok _) ex_cdd ex_text).
Definition ex_args (f : string) (s : sort_arg) : args :=
  {| a_file := chars_of f; a_format := None; a_encoding := None; a_mask := None; a_prune := false; a_strict := true; a_sort := s |}.
Definition cdir := chars_of "cache".
Definition wr (f t : string) (m : Z) : file_op chars := Write chars (chars_of f) (chars_of t) m.

(** Two versions of a file, both loaded twice through the cache, with an eviction *)
Definition ex_history : list (event chars) :=
  [File chars (wr "a.dbc" "V1" 10); Load chars (Some cdir) (ex_args "a.dbc" SortDefault) []; Load chars (Some cdir) (ex_args "a.dbc" SortDefault) [];
   Load chars (Some cdir) (ex_args "a.dbc" (SortUser 7 true)) [];
   File chars (wr "a.dbc" "V2" 20); Load chars (Some cdir) (ex_args "a.dbc" SortDefault) []; Evict chars cdir None;
   File chars (wr "b.dbc" "V3" 20)].
Example ex_undisturbed : undisturbed chars ex_history.
Proof.
  intros dir a during I; cbn in I.
  repeat (destruct I as [I|I]; [first [discriminate I|injection I as <- <- <-; reflexivity]|]); destruct I.
Qed.
Example ex_increases : mtime_increases chars (ops_of chars ex_history).
Proof.
  intros pre f c m post c' m' E I. cbn in E.
  destruct pre as [|o1 pre]; [destruct I|]. injection E as <- E.
  destruct pre as [|o2 pre].
  { injection E as <- <- <- E. destruct I as [I|[]]; injection I as _ <-; reflexivity. }
  injection E as <- E. destruct pre as [|o3 pre].
  { injection E as <- <- <- E. destruct I as [I|[I|[]]]; discriminate I. }
  injection E as <- E. destruct pre; discriminate.
Qed.
Example ex_faithful : mtime_faithful chars (ops_of chars ex_history).
Proof. exact (increases_faithful chars chars ex_text _ ex_increases). Qed.
(** The cache holds both versions and the answer is the new one. *)
Example ex_cached : Datatypes.length (cache_of _ _ (snd (ex_run ex_history)) cdir) = 2%nat /\
  fst (ex_load (fst (ex_run ex_history)) (fst (ex_run ex_history)) (snd (ex_run ex_history)) (Some cdir) (ex_args "a.dbc" SortDefault)) =
  inl (CanDb _ _ (SortDefault, chars_of "2")).
Proof. split; vm_compute; reflexivity. Qed.
Example ex_transparent :
  fst (ex_load (fst (ex_run ex_history)) (fst (ex_run ex_history)) (snd (ex_run ex_history)) (Some cdir) (ex_args "a.dbc" SortDefault)) =
  ex_plain (fst (ex_run ex_history)) (ex_args "a.dbc" SortDefault).
Proof. apply C44_transparent; [exact ex_undisturbed|exact ex_faithful|exact I]. Qed.

(** C44 refuted when a file changes without a new modification time (the old database is returned),
    and for faithful times that go back while a load runs. *)
Definition same_time : list (event chars) :=
  [File chars (wr "a.dbc" "V1" 10); Load chars (Some cdir) (ex_args "a.dbc" SortNone) []; File chars (wr "a.dbc" "V2" 10)].
Theorem C44_same_mtime_refuted :
  let st := ex_run same_time in
  fst (ex_load (fst st) (fst st) (snd st) (Some cdir) (ex_args "a.dbc" SortNone)) <> ex_plain (fst st) (ex_args "a.dbc" SortNone).
Proof. cbn zeta; intros E; vm_compute in E; discriminate E. Qed.
Definition back_in_time : list (event chars) :=
  [File chars (wr "a.dbc" "V1" 10); Load chars (Some cdir) (ex_args "a.dbc" SortNone) [wr "a.dbc" "V2" 20]; File chars (wr "a.dbc" "V1" 10)].
Theorem C44_mtime_restored_refuted :
  let st := ex_run back_in_time in
  mtime_faithful chars (ops_of chars back_in_time) /\
  fst (ex_load (fst st) (fst st) (snd st) (Some cdir) (ex_args "a.dbc" SortNone)) <> ex_plain (fst st) (ex_args "a.dbc" SortNone).
Proof.
  cbn zeta; split; [|intros E; vm_compute in E; discriminate E].
  intros f m c c' I J; cbn in I, J.
  destruct I as [I|[I|[I|[]]]]; destruct J as [J|[J|[J|[]]]]; injection I as _ E1 E2; injection J as _ E3 E4; congruence.
Qed.
(** Two files with different contents, the same sort function: the second load returns the first file. *)
Definition two_files : files chars := [(chars_of "a.dbc", (chars_of "V1", 10)); (chars_of "b.dbc", (chars_of "V2", 20))].
Example ex_user_sort :
  let cs := snd (ex_load two_files two_files [] (Some cdir) (ex_args "a.dbc" (SortUser 1 true))) in
  fst (ex_load two_files two_files cs (Some cdir) (ex_args "b.dbc" (SortUser 1 true))) = ex_plain two_files (ex_args "a.dbc" (SortUser 1 true)) /\
  ex_plain two_files (ex_args "a.dbc" (SortUser 1 true)) <> ex_plain two_files (ex_args "b.dbc" (SortUser 1 true)).
Proof. cbn zeta; split; [vm_compute; reflexivity|intros E; vm_compute in E; discriminate E]. Qed.
Example ex_resolve : resolve None None (chars_of "/home/x.y/My.File.DBC") = (chars_of "dbc", chars_of "cp1252") /\
  resolve None None (chars_of "/home/x.y/.dbc") = ([], chars_of "utf-8").
Proof. split; vm_compute; reflexivity. Qed.
Example ex_format_found : load_string (sort_arg * chars) unit chars ex_can (@Ok _) ex_cdd (chars_of "V1") None None true true SortNone =
  inl (CanDb _ _ (SortNone, chars_of "1")).
Proof. vm_compute; reflexivity. Qed.
Example ex_format_none : exists es, load_string (sort_arg * chars) unit chars ex_can (@Ok _) ex_cdd (chars_of "W1") None None true true SortNone = inr (Unsupported es).
Proof. eexists; vm_compute; reflexivity. Qed.
