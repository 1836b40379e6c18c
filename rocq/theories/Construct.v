(** Construct: the message constructor. *)
From Coq Require Import Sorting.Permutation Sorting.Sorted.
From Verif Require Import Base PyNum Conversion Signal Bitstruct Formats Message LayoutSpec CodecSpec
     DictLemmas BitsLemmas GenItems NodeProofs CheckSignal TreeProofs MsgProofs CheckComplete.
Ltac Zify.zify_post_hook ::= Z.div_mod_to_equations.

(** ** The recursion of [create_codec] ends *)
Lemma depth_chain all p k : names_unique all -> depth all p k ->
  exists l, NoDup l /\ incl l all /\ List.length l = k /\
    forall s, In s l -> exists j, depth all (Some (s_name s)) j /\ (j <= k)%nat.
Proof.
  intros U D. induction D as [|y k Hy D IH].
  - exists []. repeat split; [constructor|intros x []|intros s []].
  - destruct IH as (l & N & I & L & DJ). exists (y :: l). repeat split.
    + constructor; [|assumption]. intros HI. destruct (DJ y HI) as (j & Dj & Lj).
      assert (j = S k); [|lia]. apply (depth_det all (Some (s_name y))); [assumption|assumption|]. now constructor.
    + intros x [<-|Hx]; auto.
    + cbn. lia.
    + intros s [<-|Hs].
      * exists (S k). split; [now constructor|lia].
      * destruct (DJ s Hs) as (j & Dj & Lj). exists j. split; [assumption|lia].
Qed.

Lemma depth_bound all p k : names_unique all -> depth all p k -> (k <= List.length all)%nat.
Proof.
  intros U D. destruct (depth_chain _ _ _ U D) as (l & N & I & <- & _). now apply NoDup_incl_length.
Qed.

Theorem create_codec_total all n :
  names_unique all ->
  forall f p mid k, depth all p k -> (List.length all < f + k)%nat ->
  (forall mv s, desc all mv p mid s -> kind_ok s) ->
  exists c, create_codec f all n p mid = Ok c.
Proof.
  intros U. induction f as [|f IH]; intros p mid k D LF K.
  { assert (B := depth_bound _ _ _ U D). lia. }
  rewrite create_codec_eq by assumption. cbv zeta.
  assert (exists l, mapM (branch (fun name i => create_codec f all n (Some name) (Some i)) all)
                         (filter (belongs p mid) all) = Ok l) as [l ->].
  { apply mapM_ok_ex. apply Forall_forall. intros m Hm. unfold branch.
    destruct (s_is_mux m) eqn:Em; [|cbn; eauto].
    apply filter_In in Hm. destruct Hm as [Hm HB].
    assert (exists bs, mapM (fun i => let* c := create_codec f all n (Some (s_name m)) (Some i) in Ok (i, c))
                            (children_ids all m) = Ok bs) as [bs ->]; [|cbn; eauto].
    apply mapM_ok_ex. apply Forall_forall. intros i Hi.
    destruct (IH (Some (s_name m)) (Some i) (S k)) as [c ->]; [| | |cbn; eauto].
    - constructor; [assumption|]. apply belongs_iff in HB. destruct HB as [-> _]. assumption.
    - lia.
    - intros mv s Ds.
      apply (K (fun nm => if String.eqb nm (s_name m) then Some i else mv nm) s).
      apply desc_down with m i; auto; [now rewrite String.eqb_refl|].
      assert (DM : depth all (Some (s_name m)) (S k)).
      { constructor; [assumption|]. apply belongs_iff in HB. destruct HB as [-> _]. assumption. }
      assert (G : forall p mid s, desc all mv p mid s ->
         (forall t, In t all -> s_mux_sig t = p -> below all (s_name m) t) ->
         desc all (fun nm => if String.eqb nm (s_name m) then Some i else mv nm) p mid s).
      { clear Ds s. intros p0 mid0 s Ds. induction Ds as [p0 mid0 s Hs HBs|p0 mid0 m0 v s Hm0 HB0 Em0 Ev0 Ds IHd]; intros BL.
        - now apply desc_here.
        - assert (B0 : below all (s_name m) m0) by (apply BL; [assumption|apply belongs_iff in HB0; tauto]).
          apply desc_down with m0 v; auto.
          + destruct (String.eqb_spec (s_name m0) (s_name m)) as [E|]; [|assumption].
            destruct (below_depth _ _ _ _ U B0 DM) as (k' & D' & LT). rewrite E in D'.
            assert (k' = S k) by (eapply depth_det; eauto). lia.
          + apply IHd. intros t Ht Et. now apply below_step with m0. }
      apply G; [assumption|]. intros t Ht Et. now apply below_one. }
  cbn [bind].
  destruct (create_formats_ok (filter (belongs p mid) all) n) as [fm ->]; [|cbn; eauto].
  intros s Hs. apply filter_In in Hs. apply (K (fun _ => None)). now apply desc_here.
Qed.

(** ** The default order *)
Lemma sort_default_perm l : Permutation (sort_signals_by_start_bit l) l.
Proof. apply sorted_py_perm. Qed.

Lemma sort_default_le l : le_sorted (sort_signals_by_start_bit l).
Proof.
  unfold le_sorted.
  assert (S : StronglySorted (fun a b => (start_bit a <=? start_bit b) = true) (sort_signals_by_start_bit l)).
  { apply sorted_py_sorted; intros; lia. }
  apply (StronglySorted_filter _ little) in S.
  assert (IN : forall s, In s (filter little (sort_signals_by_start_bit l)) -> s_big s = false).
  { intros s Hs. apply filter_In in Hs. unfold little in Hs. now destruct (s_big s), Hs. }
  induction S as [|a r S IH HF]; [constructor|].
  constructor; [apply IH; intros; apply IN; now right|].
  apply Forall_forall. intros b Hb. apply (proj1 (Forall_forall _ _) HF) in Hb as E.
  unfold start_bit in E. rewrite (IN a), (IN b) in E; [lia|now right|now left].
Qed.

Lemma check_lengths_iff l : check_lengths l = Ok tt <-> forall s, In s l -> 0 < s_length s.
Proof.
  unfold check_lengths. destruct (forallb _ l) eqn:E.
  - split; [|reflexivity]. intros _ s Hs. apply (proj1 (forallb_forall _ _) E) in Hs. lia.
  - split; [discriminate|]. intros H. exfalso.
    assert (forallb (fun s => 0 <? s_length s) l = true); [|congruence].
    apply forallb_forall. intros s Hs. specialize (H s Hs). lia.
Qed.

Lemma bits0 n : 0 <= n -> zlen (nrep (8 * n) (@None string)) = 8 * n /\ forall j, occ (nrep (8 * n) None) j = false.
Proof.
  intros Hn. split; [apply nrep_len; lia|]. intros j. unfold occ. rewrite nth_nrep.
  destruct (_ <? _); reflexivity.
Qed.

(** The internal facts about a well formed message. *)
Record msg_ok (m : message) : Prop := {
  mo_len : 0 <= m_length m;
  mo_names : names_unique (m_signals m);
  mo_pos : forall s, In s (m_signals m) -> 0 < s_length s;
  mo_start : forall s, In s (m_signals m) -> 0 <= s_start s;
  mo_wfc : wfc (m_signals m) (m_length m) None None (m_codec m);
  mo_cok : codec_ok (m_length m) (m_codec m);
  mo_layout : layout_ok (m_signals m) (m_length m);
  mo_tree : m_tree m = create_signal_tree (m_codec m)
}.

Lemma refresh_ok sigs n c t :
  0 <= n -> names_unique sigs -> (forall s, In s sigs -> 0 <= s_start s) -> le_sorted sigs ->
  refresh sigs n true = Ok (c, t) ->
  (forall s, In s sigs -> 0 < s_length s) /\ wfc sigs n None None c /\ codec_ok n c /\ layout_ok sigs n /\
  t = create_signal_tree c.
Proof.
  intros Hn U SP LS H. unfold refresh in H.
  apply bind_ok in H. destruct H as ([] & HL & H). rewrite check_lengths_iff in HL.
  apply bind_ok in H. destruct H as (c' & HC & H).
  apply bind_ok in H. destruct H as ([] & HK & H). apply Ok_inj in H. injection H as <- <-.
  apply bind_ok in HK. destruct HK as (bits' & HK & _).
  apply create_codec_wfc in HC; [|assumption].
  destruct (bits0 n Hn) as [B1 B2].
  destruct (check_codec_sound sigs n None None c' Hn U HL SP LS HC _ _ B1 HK) as (_ & COK & _ & CL).
  split; [assumption|]. split; [assumption|]. split; [assumption|]. split; [|reflexivity].
  intros mv s A. assert (ACT := sel_list_active sigs n mv c' U HC). destruct (CL mv) as [C1 _ _ C4].
  apply ACT in A as A'. split; [now apply C1|].
  intros t At N. apply ACT in At. now apply C4.
Qed.

Lemma le_sorted_perm_names l l' : Permutation l l' -> names_unique l -> names_unique l'.
Proof. intros P U. unfold names_unique. eapply Permutation_NoDup; [|exact U]. now apply Permutation_map. Qed.

Theorem mk_message_ok fid ext name len unused sigs sort m :
  0 <= len -> names_unique (apply_sort sort sigs) ->
  (forall s, In s (apply_sort sort sigs) -> 0 <= s_start s) -> le_sorted (apply_sort sort sigs) ->
  mk_message fid ext name len unused sigs true sort = Ok m ->
  msg_ok m /\ m_signals m = apply_sort sort sigs /\ m_length m = len /\ m_unused m = unused /\
  m_frame_id m = fid /\ m_extended m = ext /\ m_name m = name.
Proof.
  intros Hn U SP LS H. unfold mk_message in H.
  destruct (if ext then _ else _) in H; [discriminate|].
  apply bind_ok in H. destruct H as ([c t] & HR & H). apply Ok_inj in H. subst m. cbn.
  destruct (refresh_ok _ _ _ _ Hn U SP LS HR) as (A & B & C & D & E).
  split; [|auto 10]. split; auto.
Qed.

Lemma strict_message_ok m : strict_message m -> msg_ok m /\ forall s, In s (m_signals m) -> built_conv (s_conv s).
Proof.
  intros (fid & ext & name & len & unused & sigs & H & Hn & U & SP & BC).
  assert (P := sort_default_perm sigs).
  destruct (mk_message_ok fid ext name len unused sigs SortDefault m) as (OK & ES & _); auto.
  - cbn. apply (le_sorted_perm_names sigs); [now symmetry|assumption].
  - cbn. intros s Hs. apply SP. now apply (Permutation_in _ P).
  - cbn. apply sort_default_le.
  - split; [assumption|]. rewrite ES. cbn. intros s Hs. apply BC. now apply (Permutation_in _ P).
Qed.

(** ** The layout check decides [layout_ok] *)
Lemma active_perm l l' mv s : Permutation l l' -> active l mv s -> active l' mv s.
Proof.
  intros P A. induction A as [s Hs HN|s m v ids Hs Hm A IH Em Ev Ei Hv].
  - apply active_root; [now apply (Permutation_in _ P)|assumption].
  - apply active_child with m v ids; auto. now apply (Permutation_in _ P).
Qed.

Lemma layout_ok_perm l l' n : Permutation l l' -> layout_ok l n -> layout_ok l' n.
Proof.
  intros P H mv s A. assert (P' := Permutation_sym P). 
  destruct (H mv s (active_perm _ _ _ _ P' A)) as [H1 H2]. split; [assumption|].
  intros t At. apply H2. now apply (active_perm _ _ _ _ P').
Qed.

Theorem refresh_complete sigs n :
  0 <= n -> names_unique sigs -> (forall s, In s sigs -> 0 <= s_start s) ->
  (forall s, In s sigs -> 0 < s_length s) ->
  (forall mv s, active sigs mv s -> kind_ok s) -> layout_ok sigs n ->
  exists c t, refresh sigs n true = Ok (c, t).
Proof.
  intros Hn U SP LP K LO. unfold refresh.
  rewrite (proj2 (check_lengths_iff sigs) LP). cbn [bind].
  destruct (create_codec_total sigs n U (S (List.length sigs)) None None 0) as [c HC].
  - constructor.
  - lia.
  - intros mv s D. apply (K mv). now apply desc_active.
  - rewrite HC. cbn [bind]. assert (W := create_codec_wfc _ _ _ _ _ _ U HC).
    assert (ACT := fun mv => sel_list_active sigs n mv c U W).
    destruct (bits0 n Hn) as [B1 B2].
    destruct (check_codec_complete sigs n None None c Hn U LP SP W 0%nat (nrep (8 * n) None)) as (bits' & HB & _).
    + constructor.
    + assumption.
    + intros mv s Hs. apply ACT in Hs. apply (LO mv s Hs).
    + intros. apply B2.
    + intros mv s t Hs Ht. apply ACT in Hs, Ht. apply (LO mv s Hs). assumption.
    + unfold check_codec in HB. rewrite HB. cbn [bind]. eauto.
Qed.

(** Errors of the constructor are cantools errors (valid float sizes, unique names). *)
Lemma mapM_err {A B} (f : A -> result B) l e : mapM f l = Err e -> exists x, In x l /\ f x = Err e.
Proof.
  induction l as [|x l IH]; cbn; [discriminate|].
  destruct (f x) as [y|e'] eqn:E; cbn [bind].
  - destruct (mapM f l) as [ys|e2]; cbn; [discriminate|]. intros [= ->]. destruct (IH eq_refl) as (z & Hz & Ez). eauto.
  - intros [= ->]. eauto.
Qed.
