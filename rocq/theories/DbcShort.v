(** DbcShort: the database after dump has changed its names, as a function of the database. *)
From Coq Require Import Ascii Permutation.
From Verif Require Import Base CSource CNames DictLemmas Regex DecText DbcNames Prop_DbcNames DbcToken DbcLex DbcStmt DbcPieces DbcParse DbcGrammar DbcDump DbcLoad DbcTables DbcFit DbcWrite DbcSame.
Local Open Scope string_scope.
Local Open Scope Z_scope.
Local Open Scope list_scope.

(** ** The short name of a name *)
Definition sh (shorten : bool) (names : list chars) (n : chars) : chars :=
  if shorten then match convert_names names with Some (l2s, _) => match nget l2s n with Some s => s | None => n end | None => n end else n.
Lemma chars_ne a b : a <> b -> chars_eqb a b = false.
Proof. intros H. destruct (cspec a b); [contradiction|reflexivity]. Qed.
Section Sh.
  Context (shorten : bool) (names : list chars) (ND : NoDup names).
  Notation f := (sh shorten names).
  Lemma conv_exists : exists l2s s2l, convert_names names = Some (l2s, s2l).
  Proof. destruct (conv_ok names (S (List.length names)) ND ltac:(lia)) as (a & b & E & _). exists a, b. exact E. Qed.
  Lemma conv_keys l2s s2l n : convert_names names = Some (l2s, s2l) -> (In n names <-> exists s, nget l2s n = Some s).
  Proof.
    intros E. destruct (conv_names _ _ _ ND E) as (I1 & _). unfold nget. rewrite (get_in_keys _ cspec), I1.
    split; apply Permutation_in; [apply Permutation_sym|]; apply sorted_py_perm.
  Qed.
  Lemma sh_converter : exists c, converter names = Ok c /\ forall n, In n names -> short_of c n = Ok (sh true names n).
  Proof.
    destruct conv_exists as (l & s & E). exists l. unfold converter. rewrite E. split; [reflexivity|]. intros n I. unfold short_of, sh. rewrite E.
    apply (conv_keys _ _ _ E) in I. destruct I as (x & ->). reflexivity.
  Qed.
  Lemma sh_other n : ~ In n names -> f n = n.
  Proof.
    intros I. unfold sh. destruct shorten; [|reflexivity]. destruct conv_exists as (l & s & E). rewrite E. destruct (nget l n) as [x|] eqn:G; [|reflexivity].
    exfalso. apply I, (conv_keys _ _ _ E). exists x. exact G.
  Qed.
  Lemma sh_short n : is_short n = true -> f n = n.
  Proof.
    intros L. destruct (in_dec (list_eq_dec ascii_dec) n names) as [I|I]; [|apply sh_other, I]. unfold sh. destruct shorten; [|reflexivity].
    destruct conv_exists as (l & s & E). rewrite E, (C45_short_names_kept _ _ _ _ ND E I); [reflexivity|]. apply Nat.leb_le, L.
  Qed.
  Lemma sh_inj a b : In a names -> In b names -> f a = f b -> a = b.
  Proof.
    intros A B. unfold sh. destruct shorten; [|trivial]. destruct conv_exists as (l & s & E). rewrite E.
    destruct (proj1 (conv_keys _ _ a E) A) as (x & GA). destruct (proj1 (conv_keys _ _ b E) B) as (y & GB). rewrite GA, GB. intros ->.
    exact (C45_distinct _ _ _ _ _ _ ND E A B GA GB).
  Qed.
  Lemma pad4_ge i : (4 <= List.length (pad4 i))%nat.
  Proof. unfold pad4. rewrite app_length, repeat_length. lia. Qed.
  Lemma cand_ge s i : List.length s = 32%nat -> (32 <= List.length (cand s i))%nat.
  Proof.
    intros L. induction i as [|i IH]; [cbn [cand]; lia|]. rewrite cand_length. pose proof (pad4_ge i). lia.
  Qed.
  Lemma sh_changed n : f n <> n -> In n names /\ is_short n = false /\ (32 <= List.length (f n))%nat.
  Proof.
    intros C. destruct (in_dec (list_eq_dec ascii_dec) n names) as [I|I]; [|now rewrite sh_other in C].
    assert (L : is_short n = false). { destruct (is_short n) eqn:E; [|reflexivity]. now rewrite sh_short in C. }
    split; [exact I|]. split; [exact L|]. unfold sh in *. destruct shorten; [|congruence]. destruct conv_exists as (l & s & E). rewrite E in *.
    destruct (nget l n) as [x|] eqn:G; [|congruence]. destruct (conv_names _ _ _ ND E) as (_ & _ & _ & I4). apply (get_in _ cspec) in G.
    destruct (I4 n x G) as [(j & -> & _) _]. apply cand_ge. rewrite firstn_length. apply Nat.leb_gt in L. lia.
  Qed.
  Lemma sh_length n : Z.of_nat (List.length names) <= 10000 -> f n <> n -> (List.length (f n) <= 32)%nat.
  Proof.
    intros Z C. unfold sh in *. destruct shorten; [|congruence]. destruct conv_exists as (l & s & E). rewrite E in *.
    destruct (nget l n) as [x|] eqn:G; [|congruence]. exact (C45_length _ _ _ _ _ ND E Z G).
  Qed.
  (** A short name is not a name that is shortened. *)
  Lemma sh_apart a b : Z.of_nat (List.length names) <= 10000 -> In a names -> In b names -> f a = b -> a = b.
  Proof.
    intros Z A B E. destruct (list_eq_dec ascii_dec (f a) a) as [S|S]; [congruence|]. apply (sh_inj _ _ A B). rewrite E. symmetry. apply sh_short. rewrite <- E.
    apply Nat.leb_le, sh_length; assumption.
  Qed.
  Lemma long_not_keyword w : (32 <= List.length w)%nat -> is_keyword w = false.
  Proof.
    intros L. destruct (is_keyword w) eqn:K; [|reflexivity]. exfalso. unfold is_keyword in K. apply existsb_exists in K. destruct K as (k & I & E).
    apply String.eqb_eq in E. assert (W : w = list_ascii_of_string k) by (rewrite <- E; symmetry; apply list_ascii_of_string_of_list_ascii). subst w.
    assert (T : forallb (fun k => Nat.leb (List.length (list_ascii_of_string k)) 31) keywords = true) by (vm_compute; reflexivity).
    rewrite forallb_forall in T. specialize (T k I). apply Nat.leb_le in T. clear - L T. lia.
  Qed.
  Lemma sh_name_ok n : name_ok n = true -> name_ok (f n) = true.
  Proof.
    intros O. destruct (list_eq_dec ascii_dec (f n) n) as [->|S]; [exact O|]. destruct (sh_changed n S) as (I & _ & L). unfold name_ok in *.
    apply andb_true_iff in O. destruct O as [O _]. rewrite (long_not_keyword _ L). cbn [negb]. rewrite andb_true_r.
    unfold sh in *. destruct shorten; [|exact O]. destruct conv_exists as (l & s & E). rewrite E in *. destruct (nget l n) as [x|] eqn:G; [|exact O].
    unfold word_text in O. destruct n as [|c r]; [discriminate O|]. apply andb_true_iff in O. destruct O as [O1 O2].
    destruct (C45_characters _ _ _ _ _ is_word ND E G ltac:(discriminate) eq_refl) as [P1 P2]; [|exact O2|].
    { intros d D. unfold is_word. rewrite D. rewrite ?orb_true_r. reflexivity. }
    unfold word_text. destruct x as [|c' x]; [discriminate P2|]. cbn [firstn] in P2. injection P2 as ->. rewrite O1, P1. reflexivity.
  Qed.
  Lemma sh_eqb n : (chars_eqb n (sh true names n) || negb shorten) = chars_eqb n (f n).
  Proof. unfold sh. destruct shorten; [apply orb_false_r|]. rewrite orb_true_r. symmetry. apply chars_eqb_refl. Qed.
  Lemma sh_not n w : List.length w = List.length w -> (List.length w < 32)%nat -> n <> w -> f n <> w.
  Proof.
    intros _ L N E. destruct (list_eq_dec ascii_dec (f n) n) as [S|S]; [congruence|]. destruct (sh_changed n S) as (_ & _ & L2). rewrite E in L2. lia.
  Qed.
  Lemma sh_nodup l : (forall x, In x l -> In x names) -> NoDup l -> NoDup (map f l).
  Proof.
    induction l as [|x l IH]; intros I N; [constructor|]. inversion N; subst. cbn [map]. constructor.
    - intros J. apply in_map_iff in J. destruct J as (y & E & J). apply sh_inj in E; [|apply I; right; exact J|apply I; left; reflexivity]. congruence.
    - apply IH; [|assumption]. intros y J. apply I. right. exact J.
  Qed.
End Sh.
Lemma sh_all_short shorten names n : NoDup names -> forallb is_short names = true -> sh shorten names n = n.
Proof.
  intros ND A. destruct (in_dec (list_eq_dec ascii_dec) n names) as [I|I]; [|apply sh_other; assumption]. apply sh_short; [exact ND|]. rewrite forallb_forall in A. apply A, I.
Qed.

(** ** A dictionary whose inner keys are renamed frame by frame *)
Section Frames.
  Context {M V : Type} (fr : M -> Z) (h : M -> chars -> chars).
  Definition rename_frame (sr : list (Z * list (chars * V))) (m : M) : list (Z * list (chars * V)) :=
    match dget Z.eqb sr (fr m) with
    | None => sr
    | Some sm => dset Z.eqb sr (fr m) (dupdate chars_eqb [] (map (fun p => (h m (fst p), snd p)) sm))
    end.
  Definition name_in (ms : list M) (fid : Z) (n : chars) : chars := match find (fun m => fr m =? fid) ms with Some m => h m n | None => n end.
  Definition rename_frames (ms : list M) (sr : list (Z * list (chars * V))) : list (Z * list (chars * V)) :=
    map (fun p => (fst p, map (fun q => (name_in ms (fst p) (fst q), snd q)) (snd p))) sr.
  Lemma dset_old {K W} (eqb : K -> K -> bool) (spec : forall a b, reflect (a = b) (eqb a b)) (d : list (K * W)) k v : NoDup (map fst d) -> In k (map fst d) ->
    dset eqb d k v = map (fun p => if eqb (fst p) k then (fst p, v) else p) d.
  Proof.
    induction d as [|[a w] d IH]; intros N I; [destruct I|]. cbn [dset map fst]. inversion N; subst. destruct (spec a k) as [->|NE].
    - rewrite (map_ext_in _ (fun p => p)); [rewrite map_id; reflexivity|]. intros [b x] J. cbn [fst]. destruct (spec b k) as [->|]; [|reflexivity].
      exfalso. apply H1. apply in_map_iff. exists (k, x). auto.
    - rewrite IH; [reflexivity|assumption|]. destruct I as [I|I]; [contradiction|exact I].
  Qed.
  Lemma rename_frame_map sr m : NoDup (map fst sr) -> (forall p, In p sr -> fst p = fr m -> NoDup (map (h m) (map fst (snd p)))) ->
    rename_frame sr m = map (fun p => (fst p, map (fun q => (if fst p =? fr m then h m (fst q) else fst q, snd q)) (snd p))) sr.
  Proof.
    intros N H. unfold rename_frame. destruct (dget Z.eqb sr (fr m)) as [sm|] eqn:G.
    - pose proof G as G2. apply (get_in _ zspec) in G. rewrite (dset_old _ zspec) by (try exact N; apply in_map_iff; exists (fr m, sm); auto).
      apply map_ext_in. intros [k l] I. cbn [fst snd]. destruct (Z.eqb_spec k (fr m)) as [->|NE].
      + apply (in_get _ zspec) in I; [|exact N]. rewrite G2 in I. injection I as <-. f_equal. rewrite (upd_app _ cspec); [reflexivity|]. cbn [app].
        rewrite map_map. cbn [fst]. specialize (H _ G eq_refl). cbn [snd] in H. rewrite map_map in H. exact H.
      + f_equal. rewrite (map_ext _ (fun q => q)); [rewrite map_id; reflexivity|]. intros [a b]. reflexivity.
    - apply (get_none _ zspec) in G. rewrite (map_ext_in _ (fun p => p)); [rewrite map_id; reflexivity|]. intros [k l] I. cbn [fst snd].
      destruct (Z.eqb_spec k (fr m)) as [->|NE]; [exfalso; apply G, in_map_iff; exists (fr m, l); auto|]. f_equal. rewrite (map_ext _ (fun q => q)); [apply map_id|]. intros [a b]. reflexivity.
  Qed.
  Lemma rename_frames_fold ms : forall sr, NoDup (map fr ms) -> NoDup (map fst sr) ->
    (forall m p, In m ms -> In p sr -> fst p = fr m -> NoDup (map (h m) (map fst (snd p)))) -> fold_left rename_frame ms sr = rename_frames ms sr.
  Proof.
    induction ms as [|m ms IH]; intros sr NM NS H; cbn [fold_left].
    - unfold rename_frames, name_in. cbn [find]. rewrite (map_ext _ (fun p => p)); [rewrite map_id; reflexivity|]. intros [k l]. cbn [fst snd]. f_equal.
      rewrite (map_ext _ (fun q => q)); [apply map_id|]. intros [a b]. reflexivity.
    - cbn [map] in NM. inversion NM; subst. rewrite rename_frame_map; [|exact NS|].
      + rewrite IH; [|assumption| |].
        * unfold rename_frames. rewrite map_map. apply map_ext_in. intros [k l] I. cbn [fst snd]. rewrite map_map. f_equal. apply map_ext. intros [a b]. cbn [fst snd]. f_equal.
          unfold name_in. cbn [find]. rewrite (Z.eqb_sym (fr m) k). destruct (Z.eqb_spec k (fr m)) as [->|]; [|reflexivity].
          destruct (find _ ms) as [m'|] eqn:E; [|reflexivity]. apply find_some in E. destruct E as [E1 E2]. apply Z.eqb_eq in E2. exfalso. apply H2. rewrite <- E2.
          apply in_map, E1.
        * rewrite map_map. exact NS.
        * intros m' p I J E. apply in_map_iff in J. destruct J as ([k l] & <- & J). cbn [fst snd] in *. destruct (Z.eqb_spec k (fr m)) as [->|].
          { exfalso. apply H2. rewrite E. apply in_map, I. }
          assert (K : forall g : chars * V -> chars, (forall q, g q = fst q) -> map fst (map (fun q => (g q, snd q)) l) = map fst l).
          { intros g G. rewrite map_map. apply map_ext. exact G. }
          rewrite K by reflexivity. exact (H m' (k, l) (or_intror I) J E).
      + intros p I E. apply H; [left; reflexivity|exact I|exact E].
  Qed.
End Frames.

Section Short.
Context {FL : Floats} {LW : FloatLaws FL} (shorten : bool).
Implicit Types (db : database) (m : dmessage) (s : dsignal) (defs : definitions) (d : definition).

(** ** The database with its names changed *)
Definition long_attr d (a : attrs) (n n' : chars) : attrs :=
  if chars_eqb n n' then cdel a (d_name d) else cset (cdel a (d_name d)) (d_name d) (Attr (AStr n) d).
Definition ren_node (f : chars -> chars) d (n : node) : node := Node (f (n_name n)) (n_comment n) (long_attr d (n_attrs n) (n_name n) (f (n_name n))).
Definition ren_nodes_in (f : chars -> chars) m : dmessage :=
  with_signals m (map f (m_senders m)) (map (fun s => with_receivers s (map f (s_receivers s))) (m_signals m)) (m_groups m).
Definition ren_name (f : chars -> chars) d m : dmessage := with_message_name m (f (m_name m)) (long_attr d (m_attrs m) (m_name m) (f (m_name m))).
Definition ren_signal (f : chars -> chars) d s : dsignal := with_name_attrs s (f (s_name s)) (long_attr d (s_attrs s) (s_name s) (f (s_name s))).
Definition ren_group (f : chars -> chars) (g : group) : group := Group (g_name g) (g_repetitions g) (map f (g_signals g)).
Definition names_of m : list chars := map s_name (m_signals m).
Definition ren_signals d m : dmessage :=
  let f := sh shorten (names_of m) in
  with_signals m (m_senders m) (map (ren_signal f d) (m_signals m)) (option_map (map (ren_group f)) (m_groups m)).
Definition ren_envvar (f : chars -> chars) d (p : chars * envvar) : chars * envvar :=
  (fst p, with_envvar_name (snd p) (f (e_name (snd p))) (long_attr d (e_attrs (snd p)) (e_name (snd p)) (f (e_name (snd p))))).
Definition changes {A} (f : chars -> chars) (name : A -> chars) (l : list A) : bool := existsb (fun x => negb (chars_eqb (name x) (f (name x)))) l.
Definition add_if (b : bool) defs d : definitions := if b then ensure defs d else defs.

Lemma ensured_same defs d : ensured (ensure defs d) d = ensured defs d.
Proof.
  unfold ensured, ensure. destruct (cmem defs (d_name d)) eqn:E; [reflexivity|]. unfold cget, cset. rewrite (get_set _ cspec), chars_eqb_refl.
  destruct (dget chars_eqb defs (d_name d)) as [x|] eqn:G; [|reflexivity]. exfalso. assert (M : cmem defs (d_name d) = true); [|congruence].
  unfold cmem. rewrite (mem_true _ cspec). apply (get_in_keys _ cspec). exists x. exact G.
Qed.
Lemma ensured_other defs d d' : d_name d <> d_name d' -> ensured (ensure defs d) d' = ensured defs d'.
Proof.
  intros N. unfold ensured, ensure. destruct (cmem defs (d_name d)) eqn:E; [reflexivity|]. unfold cget, cset. rewrite (get_set _ cspec).
  destruct (cspec (d_name d) (d_name d')); [contradiction|reflexivity].
Qed.
Lemma ensure_twice defs d : ensure (ensure defs d) d = ensure defs d.
Proof.
  unfold ensure at 1. assert (M : cmem (ensure defs d) (d_name d) = true); [|rewrite M; reflexivity].
  unfold ensure. destruct (cmem defs (d_name d)) eqn:E; [exact E|]. unfold cmem, cset. rewrite (mem_true _ cspec). apply (set_keys_in _ cspec). left. reflexivity.
Qed.
Lemma add_if_ensured b defs d : ensured (add_if b defs d) d = ensured defs d.
Proof. destruct b; [apply ensured_same|reflexivity]. Qed.
Lemma add_if_other b defs d d' : d_name d <> d_name d' -> ensured (add_if b defs d) d' = ensured defs d'.
Proof. destruct b; [apply ensured_other|reflexivity]. Qed.
Lemma add_if_more b defs d : add_if b (ensure defs d) d = ensure defs d.
Proof. destruct b; [apply ensure_twice|reflexivity]. Qed.
Lemma ensured_name defs d : (forall k x, cget defs k = Some x -> d_name x = k) -> d_name (ensured defs d) = d_name d.
Proof. intros H. unfold ensured. destruct (cget defs (d_name d)) eqn:E; [|reflexivity]. apply H, E. Qed.
Definition named defs : Prop := forall k x, cget defs k = Some x -> d_name x = k.
Lemma named_ensure defs d : named defs -> named (ensure defs d).
Proof.
  intros H. unfold ensure. destruct (cmem defs (d_name d)); [exact H|]. intros k x. unfold cget, cset. rewrite (get_set _ cspec). destruct (cspec (d_name d) k); [|apply H]. congruence.
Qed.
Lemma named_add b defs d : named defs -> named (add_if b defs d).
Proof. destruct b; [apply named_ensure|trivial]. Qed.
Lemma set_long_ensured defs d a n : named defs -> set_long a n defs d = cset a (d_name (ensured defs d)) (Attr (AStr n) (ensured defs d)).
Proof. intros H. unfold set_long. rewrite (ensured_name _ _ H). reflexivity. Qed.

(** ** Nodes *)
Lemma map_rename_in old new l : rename_in old new l = map (fun x => if chars_eqb x old then new else x) l. Proof. reflexivity. Qed.
Definition upto (f : chars -> chars) (l : list chars) (x : chars) : chars := if chars_in x l then f x else x.
Lemma ren_nodes_in_ext f g m : (forall x, f x = g x) -> ren_nodes_in f m = ren_nodes_in g m.
Proof.
  intros E. unfold ren_nodes_in. rewrite (map_ext _ _ E). f_equal. apply map_ext. intros s. rewrite (map_ext _ _ E). reflexivity.
Qed.
Lemma ren_nodes_in_id m f : (forall x, f x = x) -> ren_nodes_in f m = m.
Proof.
  intros E. unfold ren_nodes_in. rewrite (map_ext _ (fun x => x)) by exact E. rewrite map_id. rewrite (map_ext _ (fun s => s)); [rewrite map_id; destruct m; reflexivity|].
  intros s. rewrite (map_ext _ (fun x => x)) by exact E. rewrite map_id. destruct s; reflexivity.
Qed.
Lemma ren_nodes_in_comp f g m : ren_nodes_in f (ren_nodes_in g m) = ren_nodes_in (fun x => f (g x)) m.
Proof.
  unfold ren_nodes_in, with_signals. cbn [m_id m_extended m_name m_length m_senders m_send_type m_cycle_time m_comment m_signals m_j1939 m_fd m_groups m_attrs].
  rewrite !map_map. f_equal. apply map_ext. intros s. unfold with_receivers. cbn. rewrite map_map. reflexivity.
Qed.
Lemma rename_node_as old new m : rename_node_in old new m = ren_nodes_in (fun x => if chars_eqb x old then new else x) m.
Proof. reflexivity. Qed.
Lemma chars_in_spec x l : reflect (In x l) (chars_in x l).
Proof. apply iff_reflect. symmetry. apply chars_in_iff. Qed.

Lemma short_nodes_ok c f : forall l ms defs, named defs -> NoDup (map n_name l) ->
  (forall n, In n l -> exists t, short_of c (n_name n) = Ok t /\ (chars_eqb (n_name n) t || negb shorten) = chars_eqb (n_name n) (f (n_name n)) /\ (f (n_name n) <> n_name n -> t = f (n_name n))) ->
  (forall a b, In a (map n_name l) -> In b (map n_name l) -> f a = b -> a = b) ->
  short_nodes c shorten l ms defs =
  Ok (map (ren_node f (ensured defs long_node)) l, map (ren_nodes_in (upto f (map n_name l))) ms, add_if (changes f n_name l) defs long_node).
Proof.
  induction l as [|n l IH]; intros ms defs N ND H AP.
  - cbn [short_nodes map]. rewrite (map_ext _ (fun m => m)); [rewrite map_id; reflexivity|]. intros m. apply ren_nodes_in_id. reflexivity.
  - cbn [short_nodes]. destruct (H n (or_introl eq_refl)) as (t & S & E & C). rewrite S. cbn [bind]. rewrite E. inversion ND; subst. cbn [map] in AP.
    assert (H' : forall x, In x l -> exists t, short_of c (n_name x) = Ok t /\ (chars_eqb (n_name x) t || negb shorten) = chars_eqb (n_name x) (f (n_name x)) /\ (f (n_name x) <> n_name x -> t = f (n_name x))) by (intros x I; apply H; right; exact I).
    assert (AP' : forall a b, In a (map n_name l) -> In b (map n_name l) -> f a = b -> a = b) by (intros a b A B; apply AP; right; assumption).
    destruct (cspec (n_name n) (f (n_name n))) as [EQ|NE].
    + rewrite (IH ms defs N H3 H' AP'). cbn [bind fst snd map]. unfold changes. cbn [existsb]. rewrite <- EQ, chars_eqb_refl. cbn [negb orb]. f_equal. f_equal.
      f_equal.
      * f_equal. unfold ren_node, long_attr. rewrite <- EQ, chars_eqb_refl. rewrite (ensured_name _ _ N). reflexivity.
      * apply map_ext. intros m. apply ren_nodes_in_ext. intros x. unfold upto. cbn [chars_in existsb]. destruct (cspec x (n_name n)) as [->|NX]; cbn [orb]; [|reflexivity].
        destruct (chars_in (n_name n) (map n_name l)); [reflexivity|exact EQ].
    + rewrite (IH _ _ (named_ensure _ _ N) H3 H' AP'). cbn [bind fst snd map]. unfold changes. cbn [existsb]. rewrite (chars_ne _ _ NE).
      cbn [negb orb]. rewrite ensured_same. fold (changes f n_name l). rewrite add_if_more. f_equal. f_equal. f_equal.
      * f_equal. unfold ren_node, long_attr. rewrite (chars_ne _ _ NE). rewrite (C ltac:(congruence)).
        rewrite (set_long_ensured _ _ _ _ N). rewrite (ensured_name _ _ N). reflexivity.
      * rewrite map_map. apply map_ext. intros m. rewrite rename_node_as, ren_nodes_in_comp. apply ren_nodes_in_ext. intros x. unfold upto. cbn [map chars_in existsb].
        rewrite (C ltac:(congruence)). destruct (cspec x (n_name n)) as [->|NX]; cbn [orb].
        -- destruct (chars_in_spec (f (n_name n)) (map n_name l)) as [I|_]; [|reflexivity]. exfalso. apply H2.
           assert (K : n_name n = f (n_name n)) by (apply AP; [left; reflexivity|right; exact I|reflexivity]). rewrite K. exact I.
        -- reflexivity.
Qed.

(** ** Messages, signals and environment variables *)
Lemma short_messages_ok c f : forall l defs, named defs ->
  (forall m, In m l -> exists t, short_of c (m_name m) = Ok t /\ (chars_eqb (m_name m) t || negb shorten) = chars_eqb (m_name m) (f (m_name m)) /\ (f (m_name m) <> m_name m -> t = f (m_name m))) ->
  short_messages c shorten l defs = Ok (map (ren_name f (ensured defs long_message)) l, add_if (changes f m_name l) defs long_message).
Proof.
  induction l as [|n l IH]; intros defs N H; [reflexivity|].
  cbn [short_messages]. destruct (H n (or_introl eq_refl)) as (t & S & E & C). rewrite S. cbn [bind]. rewrite E. cbn [map]. unfold changes. cbn [existsb]. fold (changes f m_name l).
  destruct (cspec (m_name n) (f (m_name n))) as [EQ|NE].
  - rewrite (IH defs N) by (intros x I; apply H; right; exact I). cbn [bind fst snd negb orb]. f_equal. f_equal. f_equal.
    unfold ren_name, long_attr. rewrite <- EQ, chars_eqb_refl, (ensured_name _ _ N). reflexivity.
  - rewrite (IH _ (named_ensure _ _ N)) by (intros x I; apply H; right; exact I). cbn [bind fst snd negb orb]. rewrite ensured_same, add_if_more. f_equal. f_equal. f_equal.
    unfold ren_name, long_attr. rewrite (chars_ne _ _ NE), (C ltac:(congruence)), (set_long_ensured _ _ _ _ N), (ensured_name _ _ N). reflexivity.
Qed.
Lemma short_signals_ok c f : forall l defs, named defs ->
  (forall s, In s l -> exists t, short_of c (s_name s) = Ok t /\ (chars_eqb (s_name s) t || negb shorten) = chars_eqb (s_name s) (f (s_name s)) /\ (f (s_name s) <> s_name s -> t = f (s_name s))) ->
  short_signals c shorten l defs = Ok (map (ren_signal f (ensured defs long_signal)) l, add_if (changes f s_name l) defs long_signal).
Proof.
  induction l as [|n l IH]; intros defs N H; [reflexivity|].
  cbn [short_signals]. destruct (H n (or_introl eq_refl)) as (t & S & E & C). rewrite S. cbn [bind]. rewrite E. cbn [map]. unfold changes. cbn [existsb]. fold (changes f s_name l).
  destruct (cspec (s_name n) (f (s_name n))) as [EQ|NE].
  - rewrite (IH defs N) by (intros x I; apply H; right; exact I). cbn [bind fst snd negb orb]. f_equal. f_equal. f_equal.
    unfold ren_signal, long_attr. rewrite <- EQ, chars_eqb_refl, (ensured_name _ _ N). reflexivity.
  - rewrite (IH _ (named_ensure _ _ N)) by (intros x I; apply H; right; exact I). cbn [bind fst snd negb orb]. rewrite ensured_same, add_if_more. f_equal. f_equal. f_equal.
    unfold ren_signal, long_attr. rewrite (chars_ne _ _ NE), (C ltac:(congruence)), (set_long_ensured _ _ _ _ N), (ensured_name _ _ N). reflexivity.
Qed.
Lemma short_envvars_ok c f : forall l defs, named defs ->
  (forall p, In p l -> exists t, short_of c (e_name (snd p)) = Ok t /\ (chars_eqb (e_name (snd p)) t || negb shorten) = chars_eqb (e_name (snd p)) (f (e_name (snd p))) /\ (f (e_name (snd p)) <> e_name (snd p) -> t = f (e_name (snd p)))) ->
  short_envvars c shorten l defs = Ok (map (ren_envvar f (ensured defs long_envvar)) l, add_if (changes f (fun p => e_name (snd p)) l) defs long_envvar).
Proof.
  induction l as [|[k n] l IH]; intros defs N H; [reflexivity|].
  cbn [short_envvars]. destruct (H (k, n) (or_introl eq_refl)) as (t & S & E & C). cbn [snd] in S, E, C. rewrite S. cbn [bind]. rewrite E. cbn [map]. unfold changes. cbn [existsb].
  fold (changes f (fun p : chars * envvar => e_name (snd p)) l). cbn [snd].
  destruct (cspec (e_name n) (f (e_name n))) as [EQ|NE].
  - rewrite (IH defs N) by (intros x I; apply H; right; exact I). cbn [bind fst snd negb orb]. f_equal. f_equal. f_equal.
    unfold ren_envvar, long_attr. cbn [fst snd]. rewrite <- EQ, chars_eqb_refl, (ensured_name _ _ N). reflexivity.
  - rewrite (IH _ (named_ensure _ _ N)) by (intros x I; apply H; right; exact I). cbn [bind fst snd negb orb]. rewrite ensured_same, add_if_more. f_equal. f_equal. f_equal.
    unfold ren_envvar, long_attr. cbn [fst snd]. rewrite (chars_ne _ _ NE), (C ltac:(congruence)), (set_long_ensured _ _ _ _ N), (ensured_name _ _ N). reflexivity.
Qed.
Lemma conv_sh names : NoDup names -> exists c, converter names = Ok c /\ (forall n, In n names -> short_of c n = Ok (sh true names n)) /\
  (forall n, (match nget c n with Some s => s | None => n end) = sh true names n) /\
  forall n, In n names -> exists t, short_of c n = Ok t /\ (chars_eqb n t || negb shorten) = chars_eqb n (sh shorten names n) /\ (sh shorten names n <> n -> t = sh shorten names n).
Proof.
  intros ND. destruct (conv_exists names ND) as (l & s & E). exists l. split; [unfold converter; rewrite E; reflexivity|].
  assert (K : forall n, In n names -> short_of l n = Ok (sh true names n)).
  { intros n I. unfold short_of, sh. rewrite E. apply (conv_keys _ ND _ _ _ E) in I. destruct I as (x & ->). reflexivity. }
  split; [exact K|]. split; [intros n; unfold sh; rewrite E; reflexivity|]. intros n I. exists (sh true names n). split; [apply K, I|]. split; [apply sh_eqb|].
  intros C. unfold sh in *. destruct shorten; [reflexivity|contradiction].
Qed.
Lemma short_rels_frame c m (sr : sig_relations) : (forall n, (match nget c n with Some s => s | None => n end) = sh true (names_of m) n) -> shorten = true ->
  short_rels c shorten (frame m) sr = rename_frame frame (fun m => sh shorten (names_of m)) sr m.
Proof.
  intros H E. unfold short_rels, rename_frame. rewrite E. destruct (dget Z.eqb sr (frame m)) as [sm|]; [|reflexivity]. f_equal. unfold dupdate.
  rewrite <- (rev_involutive sm). rewrite map_rev. rewrite <- !fold_left_rev_right, !rev_involutive. induction (rev sm) as [|q r IH]; [reflexivity|]. cbn [map fold_right fst snd]. rewrite IH, H. reflexivity.
Qed.
Definition ren_rels (ms : list dmessage) (sr : sig_relations) : sig_relations := rename_frames frame (fun m => sh shorten (names_of m)) ms sr.
Definition rels_fold (ms : list dmessage) (sr : sig_relations) : sig_relations :=
  if shorten then fold_left (rename_frame frame (fun m => sh shorten (names_of m))) ms sr else sr.
Lemma short_signal_names_ok : forall ms defs sr, named defs ->
  (forall m, In m ms -> NoDup (names_of m) /\ forall g n, In g (or_empty (m_groups m)) -> In n (g_signals g) -> In n (names_of m)) ->
  short_signal_names shorten ms defs sr =
  Ok (map (ren_signals (ensured defs long_signal)) ms, add_if (existsb (fun m => changes (sh shorten (names_of m)) s_name (m_signals m)) ms) defs long_signal, rels_fold ms sr).
Proof.
  induction ms as [|m ms IH]; intros defs sr N H; [unfold rels_fold; destruct shorten; reflexivity|]. cbn [short_signal_names].
  destruct (H m (or_introl eq_refl)) as (ND & GS). destruct (conv_sh _ ND) as (c & C & C1 & C2 & C3). unfold names_of in C. rewrite C. cbn [bind].
  rewrite (short_signals_ok c (sh shorten (names_of m)) (m_signals m) defs N).
  - cbn [bind fst snd].
    assert (G : match m_groups m with
                | None => Ok None
                | Some gs => if shorten then
                               let* gs := mapM (fun g => let* l := mapM (short_of c) (g_signals g) in Ok (Group (g_name g) (g_repetitions g) l)) gs in Ok (Some gs)
                             else Ok (Some gs)
                end = Ok (option_map (map (ren_group (sh shorten (names_of m)))) (m_groups m))).
    { destruct (m_groups m) as [gs|]; [|reflexivity]. cbn [option_map or_empty] in *. destruct shorten.
      - rewrite (mapM_all _ (ren_group (sh true (names_of m)))); [reflexivity|]. intros g I. rewrite (mapM_all _ (sh true (names_of m))); [reflexivity|].
        intros n J. apply C1, (GS g n I J).
      - f_equal. f_equal. rewrite (map_ext _ (fun g => g)); [rewrite map_id; reflexivity|]. intros [a b l]. unfold ren_group. cbn. rewrite map_id. reflexivity. }
    rewrite G. cbn [bind]. rewrite IH.
    + cbn [bind fst snd map existsb]. f_equal. f_equal; [f_equal|].
      * f_equal. destruct (changes _ _ _); cbn [add_if]; [rewrite ensured_same|]; reflexivity.
      * destruct (changes (sh shorten (names_of m)) s_name (m_signals m)); cbn [add_if orb]; [apply add_if_more|reflexivity].
      * unfold rels_fold. destruct shorten eqn:ES; [|reflexivity]. cbn [fold_left]. f_equal. rewrite <- ES. apply short_rels_frame; [exact C2|exact ES].
    + apply named_add, N.
    + intros x I. apply H. right. exact I.
  - intros s I. apply C3, in_map, I.
Qed.

(** ** All names *)
Definition node_short db : chars -> chars := sh shorten (map n_name (db_nodes db)).
Definition message_short db : chars -> chars := sh shorten (map m_name (db_messages db)).
Definition envvar_short db : chars -> chars := sh shorten (map (fun e => e_name (snd e)) (db_envvars db)).
Definition ren_message db m : dmessage :=
  ren_signals (ensured (db_definitions db) long_signal)
    (ren_name (message_short db) (ensured (db_definitions db) long_message) (ren_nodes_in (node_short db) m)).
Definition ren_definitions db : definitions :=
  let d := add_if (changes (node_short db) n_name (db_nodes db)) (db_definitions db) long_node in
  let d := add_if (changes (message_short db) m_name (db_messages db)) d long_message in
  let d := add_if (existsb (fun m => changes (sh shorten (names_of m)) s_name (m_signals m)) (db_messages db)) d long_signal in
  add_if (changes (envvar_short db) (fun p => e_name (snd p)) (db_envvars db)) d long_envvar.
Definition renamed db : database :=
  Db (db_version db) (map (ren_node (node_short db) (ensured (db_definitions db) long_node)) (db_nodes db)) (db_buses db) (map (ren_message db) (db_messages db))
    (db_attrs db) (ren_definitions db) (map (ren_envvar (envvar_short db) (ensured (db_definitions db) long_envvar)) (db_envvars db)) (db_tables db)
    (ren_rels (db_messages db) (db_sig_rels db)) (db_msg_rels db) (db_rel_definitions db).
Record named_well db : Prop := {
  nw_defs : named (db_definitions db);
  nw_nodes : NoDup (map n_name (db_nodes db));
  nw_count : zlen (db_nodes db) <= 10000;
  nw_messages : NoDup (map m_name (db_messages db));
  nw_frames : NoDup (map frame (db_messages db));
  nw_signals : forall m, In m (db_messages db) -> NoDup (names_of m);
  nw_groups : forall m g n, In m (db_messages db) -> In g (or_empty (m_groups m)) -> In n (g_signals g) -> In n (names_of m);
  nw_envvars : NoDup (map (fun e => e_name (snd e)) (db_envvars db));
  nw_rels : NoDup (map fst (db_sig_rels db));
  nw_rel_names : forall m p, In m (db_messages db) -> In p (db_sig_rels db) -> fst p = frame m -> NoDup (map (sh shorten (names_of m)) (map fst (snd p))) }.
Lemma names_of_ren f m : names_of (ren_nodes_in f m) = names_of m.
Proof. unfold names_of, ren_nodes_in. cbn. rewrite map_map. reflexivity. Qed.
Lemma names_of_name f d m : names_of (ren_name f d m) = names_of m. Proof. reflexivity. Qed.
Lemma map_changes {A B} f (name : B -> chars) (g : A -> B) l : changes f name (map g l) = changes f (fun x => name (g x)) l.
Proof. unfold changes. induction l as [|x l IH]; [reflexivity|]. cbn [map existsb]. rewrite IH. reflexivity. Qed.
Lemma existsb_map {A B} (p : B -> bool) (g : A -> B) l : existsb p (map g l) = existsb (fun x => p (g x)) l.
Proof. induction l as [|x l IH]; [reflexivity|]. cbn [map existsb]. rewrite IH. reflexivity. Qed.
Lemma existsb_ext' {A} (p q : A -> bool) l : (forall x, p x = q x) -> existsb p l = existsb q l.
Proof. intros H. induction l as [|x l IH]; [reflexivity|]. cbn [existsb]. rewrite IH, H. reflexivity. Qed.
Lemma rename_frames_id {V} (ms : list dmessage) (sr : list (Z * list (chars * V))) : rename_frames frame (fun m => sh false (names_of m)) ms sr = sr.
Proof.
  unfold rename_frames. rewrite (map_ext _ (fun p => p)); [apply map_id|]. intros [k l]. cbn [fst snd]. f_equal. rewrite (map_ext _ (fun p => p)); [apply map_id|].
  intros [a b]. cbn [fst snd]. unfold name_in, sh. destruct (find _ ms); reflexivity.
Qed.
Lemma rename_frames_map {M N V} (fr : M -> Z) h (g : N -> M) ms (sr : list (Z * list (chars * V))) :
  rename_frames fr h (map g ms) sr = rename_frames (fun n => fr (g n)) (fun n => h (g n)) ms sr.
Proof.
  unfold rename_frames. apply map_ext. intros [k l]. f_equal. apply map_ext. intros [a b]. f_equal. unfold name_in. cbn [fst].
  induction ms as [|m ms IH]; [reflexivity|]. cbn [map find]. destruct (fr (g m) =? k); [reflexivity|exact IH].
Qed.
Lemma rename_frames_ext {M V} (fr fr' : M -> Z) h h' ms (sr : list (Z * list (chars * V))) : (forall x : M, fr x = fr' x) -> (forall (x : M) n, h x n = h' x n) ->
  rename_frames fr h ms sr = rename_frames fr' h' ms sr.
Proof.
  intros E1 E2. unfold rename_frames. apply map_ext. intros [k l]. f_equal. apply map_ext. intros [a b]. f_equal. unfold name_in. cbn [fst].
  induction ms as [|m ms IH]; [reflexivity|]. cbn [find]. rewrite E1. destruct (fr' m =? k); [apply E2|exact IH].
Qed.
Theorem names_made_unique db : named_well db -> make_names_unique shorten db = Ok (renamed db).
Proof.
  intros [ND NN NC NM NF NS NG NE NR NRN]. unfold make_names_unique. destruct (conv_sh _ NN) as (c & C & _ & _ & C3). rewrite C. cbn [bind].
  rewrite (short_nodes_ok c (node_short db)); [|exact ND|exact NN| |].
  2: { intros n I. apply C3, in_map, I. }
  2: { intros a b A B. apply sh_apart; [exact NN| |exact A|exact B]. rewrite map_length. exact NC. }
  cbn [bind]. set (D1 := add_if _ (db_definitions db) long_node). assert (N1 : named D1) by apply named_add, ND.
  set (ms1 := map _ (db_messages db)). assert (EM : map m_name ms1 = map m_name (db_messages db)) by (subst ms1; rewrite map_map; reflexivity).
  rewrite EM. destruct (conv_sh _ NM) as (c' & C' & _ & _ & C3'). rewrite C'. cbn [bind].
  rewrite (short_messages_ok c' (message_short db)); [|exact N1|].
  2: { intros m I. apply C3'. rewrite <- EM. apply in_map, I. }
  cbn [bind fst snd]. set (D2 := add_if _ D1 long_message). assert (N2 : named D2) by apply named_add, N1.
  rewrite short_signal_names_ok; [|exact N2|].
  2: { intros m I. apply in_map_iff in I. destruct I as (m' & <- & I). subst ms1. apply in_map_iff in I. destruct I as (m & <- & I). rewrite names_of_name, names_of_ren.
       split; [apply NS, I|]. intros g n. exact (NG m g n I). }
  cbn [bind]. set (D3 := add_if _ D2 long_signal). assert (N3 : named D3) by apply named_add, N2.
  destruct (conv_sh _ NE) as (c4 & C4 & _ & _ & C43). rewrite C4. cbn [bind].
  rewrite (short_envvars_ok c4 (envvar_short db)); [|exact N3|].
  2: { intros p I. apply C43, (in_map (fun e : chars * envvar => e_name (snd e))), I. }
  cbn [bind fst snd]. unfold with_parts, renamed. f_equal.
  assert (F : map (ren_signals (ensured D2 long_signal)) (map (ren_name (message_short db) (ensured D1 long_message)) ms1) = map (ren_message db) (db_messages db)).
  { subst ms1. rewrite !map_map. apply map_ext. intros m. unfold ren_message. f_equal.
    - subst D2 D1. rewrite !add_if_other by discriminate. reflexivity.
    - f_equal; [subst D1; rewrite add_if_other by discriminate; reflexivity|]. apply ren_nodes_in_ext. intros x. unfold upto, node_short.
      destruct (chars_in_spec x (map n_name (db_nodes db))) as [I|I]; [reflexivity|]. symmetry. apply sh_other; [exact NN|exact I]. }
  rewrite F.
  assert (E3 : D3 = add_if (existsb (fun m => changes (sh shorten (names_of m)) s_name (m_signals m)) (db_messages db)) D2 long_signal).
  { subst D3 ms1. rewrite !existsb_map. f_equal. apply existsb_ext'. intros m. rewrite names_of_name, names_of_ren.
    cbn [ren_name with_message_name ren_nodes_in with_signals m_signals]. rewrite map_changes. reflexivity. }
  assert (E2 : D2 = add_if (changes (message_short db) m_name (db_messages db)) D1 long_message). { subst D2 ms1. rewrite map_changes. reflexivity. }
  f_equal.
  - unfold ren_definitions. rewrite E3, E2. reflexivity.
  - f_equal. f_equal. rewrite E3, E2. subst D1. rewrite !add_if_other by discriminate. reflexivity.
  - unfold rels_fold, ren_rels. destruct shorten eqn:ES; [|symmetry; apply rename_frames_id].
    subst ms1. rewrite map_map. rewrite rename_frames_fold.
    + rewrite rename_frames_map. apply rename_frames_ext; [reflexivity|]. intros m n. rewrite names_of_name, names_of_ren. reflexivity.
    + rewrite map_map. exact NF.
    + exact NR.
    + intros m p I J E. apply in_map_iff in I. destruct I as (m' & <- & I). rewrite names_of_name, names_of_ren. apply NRN; [exact I|exact J|exact E].
Qed.
End Short.
