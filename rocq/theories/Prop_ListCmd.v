(** C80, continued: the output of the list command *)
From Coq Require Import Ascii Floats.SpecFloat Permutation Sorting.Sorted.
From Verif Require Import Base PyNum Conversion Signal Message CSource CNames Regex DbcNames DbcToken Logreader DecodeCmd Xml Arxml ArxmlLoad DictLemmas DecText ListCmd ListRead ListBlock.
From Verif Require LayoutSpec TreeDraw Prop_DbcNames Prop_Cdd Prop_DecodeCmd TreeProofs Prop_TreeDraw DbcFit.
Local Open Scope string_scope.
Local Open Scope Z_scope.
Local Open Scope list_scope.
Notation all_flat := (Forall (fun x : chars => flat x = true)).
Notation all_inner := (Forall (fun x : chars => inner x = true)).

Section Proofs.
  Context (show : num -> chars) (SH : shows_numbers show).
  (** ** The command *)
  (** The message that the database finds by a name: the last of that name *)
  Definition found (db : list lmessage) (n : chars) (m : lmessage) : Prop := exists a b, db = a ++ m :: b /\ lm_name m = n /\ ~ In n (map lm_name b).
  Lemma by_name_fold db : by_name db = fold_left (fun d p => dset chars_eqb d (fst p) (snd p)) (map (fun m => (lm_name m, m)) db) [].
  Proof. unfold by_name. generalize (@nil (chars * lmessage)). induction db as [|m db IH]; intros d; [reflexivity|]. cbn [fold_left map fst snd]. apply IH. Qed.
  Lemma found_get db n m : dget chars_eqb (by_name db) n = Some m <-> found db n m.
  Proof.
    rewrite by_name_fold, Prop_Cdd.last_get0. unfold Prop_Cdd.is_last, found. split.
    - intros (a & b & E & N). apply map_eq_app in E. destruct E as (a' & b' & -> & <- & E). destruct b' as [|m' b']; [discriminate|]. cbn [map] in E. injection E as <- <- E. exists a', b'. split; [reflexivity|]. split; [reflexivity|].
      intros I. apply N. rewrite <- E, map_map. exact I.
    - intros (a & b & -> & <- & N). exists (map (fun m => (lm_name m, m)) a), (map (fun m => (lm_name m, m)) b). split; [now rewrite map_app|]. rewrite map_map. exact N.
  Qed.
  Lemma found_none db n : dget chars_eqb (by_name db) n = None <-> ~ In n (map lm_name db).
  Proof. rewrite by_name_fold, Prop_Cdd.last_none, map_map. reflexivity. Qed.
  Lemma sorted_texts_sorted l : StronglySorted (fun a b => text_leb a b = true) (sorted_texts l).
  Proof. apply sorted_py_sorted; [|exact Prop_DbcNames.text_leb_trans]. intros a b H. destruct (Prop_DbcNames.text_leb_total a b); congruence. Qed.
  Lemma sorted_nil l : sorted_texts l = [] -> l = [].
  Proof. intros E. apply Permutation_nil. rewrite <- E. apply sorted_py_perm. Qed.

  (** Frames that are not excluded *)
  Definition passes (a : list_args) (m : lmessage) : Prop :=
    (m_extended (lm_core m) = true -> la_no_extended a = false) /\ (m_extended (lm_core m) = false -> la_no_normal a = false).
  Lemma wanted_iff a m : wanted a m = true <-> passes a m.
  Proof. unfold wanted, passes. destruct (m_extended (lm_core m)), (la_no_extended a), (la_no_normal a); cbn; intuition congruence. Qed.

  (** Without names the command lists the names of all messages that are not excluded, once for each message, in alphabetic order. *)
  Theorem C80_names a db out : la_items a = [] -> la_all a = false -> list_messages show a db = Ok out ->
    exists ms, (forall x, In x ms <-> In x db /\ passes a x) /\ (exists f, ms = filter f db) /\ Permutation out (map lm_name ms) /\ StronglySorted (fun x y => text_leb x y = true) out.
  Proof.
    intros I A H. unfold list_messages in H. rewrite I, A in H. injection H as <-. exists (filter (wanted a) db). split; [|split; [now exists (wanted a)|split; [apply sorted_py_perm|apply sorted_texts_sorted]]].
    intros x. rewrite filter_In, wanted_iff. reflexivity.
  Qed.

  (** The names whose messages are shown: those given, in their order, and with --print-all also those of all messages that are
      not excluded, in alphabetic order *)
  Definition asked (a : list_args) (db : list lmessage) (names : list chars) : Prop :=
    (la_all a = false /\ names = la_items a) \/
    (la_all a = true /\ StronglySorted (fun x y => text_leb x y = true) names /\ exists ms, (forall x, In x ms <-> In x db /\ passes a x) /\ (exists f, ms = filter f db) /\ Permutation names (la_items a ++ map lm_name ms)).
  (** What is printed for a name *)
  Definition answer (a : list_args) (db : list lmessage) (n : chars) (lines : list chars) : Prop :=
    (exists m, found db n m /\ print_message show (negb (la_skip_specifics a)) m = Ok lines) \/
    (~ In n (map lm_name db) /\ lines = [txt "No message named """ ++ n ++ txt """ has been found in input file."]).
  Lemma answers a db out : (la_items a <> [] \/ la_all a = true) -> list_messages show a db = Ok out ->
    exists names blocks, asked a db names /\ Forall2 (answer a db) names blocks /\ out = List.concat blocks.
  Proof.
    intros ASK H. unfold list_messages in H.
    assert (AN : forall names blocks, mapM (list_item show a db) names = Ok blocks -> Forall2 (answer a db) names blocks).
    { intros names blocks E. apply mapM_ok in E. eapply Forall2_weaken; [|exact E]. intros n b P. unfold list_item in P. destruct (dget chars_eqb (by_name db) n) as [m|] eqn:G.
      - left. exists m. split; [now apply found_get|exact P].
      - right. split; [now apply found_none|]. assert (OI : forall a b : list chars, Ok a = Ok b -> a = b) by (intros x y X; now injection X). now apply OI in P. }
    destruct (la_all a) eqn:A.
    - exists (sorted_texts (la_items a ++ wanted_names a db)). 
      assert (AS : asked a db (sorted_texts (la_items a ++ wanted_names a db))).
      { right. split; [exact A|]. split; [apply sorted_texts_sorted|]. exists (filter (wanted a) db). split; [|split; [now exists (wanted a)|apply sorted_py_perm]]. intros x. rewrite filter_In, wanted_iff. reflexivity. }
      destruct (sorted_texts (la_items a ++ wanted_names a db)) as [|x l] eqn:S.
      + apply sorted_nil in S. apply app_eq_nil in S. destruct S as [_ S]. rewrite S in H. injection H as <-. exists []. split; [exact AS|]. split; [constructor|reflexivity].
      + apply bind_ok in H. destruct H as (bl & E & H). injection H as <-. exists bl. split; [exact AS|]. split; [now apply AN|reflexivity].
    - exists (la_items a). destruct ASK as [N|]; [|discriminate]. destruct (la_items a) as [|x l] eqn:L; [contradiction|]. apply bind_ok in H. destruct H as (bl & E & H). injection H as <-. exists bl.
      split; [left; split; [exact A|now symmetry]|]. split; [now apply AN|reflexivity].
  Qed.
  (** With names, or with --print-all, the output consists of one answer for each name. *)
  Theorem C80_answers a db out : (la_items a <> [] \/ la_all a = true) -> list_messages show a db = Ok out ->
    exists names blocks, asked a db names /\ Forall2 (answer a db) names blocks /\ out = List.concat blocks.
  Proof. apply answers. Qed.

  (** Printed text *)
  Definition flat_db (a : list_args) (db : list lmessage) : Prop := forallb flat (la_items a) = true /\ forall m, In m db -> flat_message m = true /\ distinct_all m.
  Lemma found_in db n m : found db n m -> In m db /\ lm_name m = n.
  Proof. intros (a & b & -> & E & _). split; [apply in_or_app; right; now left|exact E]. Qed.
  Lemma found_unique db n m m' : found db n m -> found db n m' -> m = m'.
  Proof. rewrite <- !found_get. congruence. Qed.
  Lemma flat_notfound n : flat n = true -> flat (txt "No message named """ ++ n ++ txt """ has been found in input file.") = true.
  Proof. intros F. apply flat_lit; [reflexivity|]. now apply flat_lit. Qed.
  Lemma notfound_header n k : txt "No message named """ ++ n ++ txt """ has been found in input file." <> k ++ txt ":".
  Proof.
    intros E. apply (f_equal (@rev ascii)) in E. rewrite !rev_app_distr in E. discriminate.
  Qed.

  (** From the text that is written each message that is asked for is read: its fields, its signals in their order with all of
      their fields, and the contained messages with theirs. *)
  Theorem C80_shown a db out n m : flat_db a db -> (In n (la_items a) \/ la_all a = true /\ exists x, In x db /\ passes a x /\ lm_name x = n) -> found db n m ->
    list_messages show a db = Ok out -> shown show (negb (la_skip_specifics a)) m (block n (lines_of (written out))).
  Proof.
    intros [FI FD] AS FO H. assert (ASK : la_items a <> [] \/ la_all a = true) by (destruct AS as [I|[I _]]; [left; now destruct (la_items a)|now right]).
    destruct (answers a db out ASK H) as (names & blocks & AK & F & ->).
    assert (IN : In n names).
    { destruct AK as [[A ->]|(A & _ & ms & M & _ & P)]; [destruct AS as [I|[I _]]; [exact I|congruence]|]. eapply Permutation_in; [apply Permutation_sym; exact P|]. apply in_or_app.
      destruct AS as [I|[_ (x & Ix & Px & <-)]]; [now left|]. right. apply in_map. now apply M. }
    assert (FN : forall k, In k names -> ~ In k (map lm_name db) -> flat k = true).
    { intros k Ik Nk. rewrite forallb_forall in FI. apply FI. destruct AK as [[A ->]|(A & _ & ms & M & _ & P)]; [exact Ik|]. eapply Permutation_in in Ik; [|exact P]. apply in_app_or in Ik. destruct Ik as [Ik|Ik]; [exact Ik|].
      exfalso. apply Nk. apply in_map_iff in Ik. destruct Ik as (x & <- & Ix). apply in_map. now apply M in Ix. }
    destruct (found_in _ _ _ FO) as [Im En]. destruct (FD m Im) as [FM DM].
    assert (NO : name_ok n = true) by (rewrite <- En; apply info_name_ok; unfold flat_message in FM; now apply andb_prop in FM).
    assert (BL : Forall (fun b => all_flat b /\ exists x r, b = x :: r /\ inner x = false /\ all_inner r /\ (x = n ++ txt ":" -> exists k, answer a db n ((n ++ txt ":") :: r) /\ k = n)) blocks).
    { clear H IN AK. induction F as [|k b names blocks Hk F IH]; [constructor|]. constructor; [|apply IH; intros; apply FN; [now right|assumption]]. destruct Hk as [(mk & Fk & Pk)|[Nk ->]].
      - destruct (found_in _ _ _ Fk) as [Ik Ek]. destruct (FD mk Ik) as [FMk DMk]. destruct (message_block show SH _ _ _ Pk FMk DMk) as (bb & -> & BI & BF & _). split; [exact BF|].
        assert (NK : name_ok (lm_name mk) = true) by (apply info_name_ok; unfold flat_message in FMk; now apply andb_prop in FMk).
        exists (lm_name mk ++ txt ":"), bb. split; [reflexivity|]. split; [now apply header_outer|]. split; [exact BI|]. intros E. apply header_inj in E. exists n. split; [|reflexivity]. rewrite <- E. left. exists mk. split; [|exact Pk].
        rewrite Ek. exact Fk.
      - split; [constructor; [|constructor]; apply flat_notfound, FN; [now left|exact Nk]|]. do 2 eexists. split; [reflexivity|]. split; [reflexivity|]. split; [constructor|]. intros E. exfalso. exact (notfound_header _ _ E). }
    assert (ALL : all_flat (List.concat blocks)).
    { clear - BL. induction BL as [|b bl [B _] _ IH]; [constructor|]. cbn [List.concat]. apply Forall_app. now split. }
    rewrite split_written by exact ALL.
    assert (PM : exists bb, print_message show (negb (la_skip_specifics a)) m = Ok ((n ++ txt ":") :: bb) /\ In ((n ++ txt ":") :: bb) blocks).
    { clear - F IN FO En FM DM SH. induction F as [|k b names blocks Hk F IH]; [destruct IN|]. destruct IN as [->|IN]; [|destruct (IH IN) as (bb & P & I); exists bb; split; [exact P|now right]].
      destruct Hk as [(mk & Fk & Pk)|[Nk _]].
      - assert (mk = m) by (eapply found_unique; eassumption). subst mk. destruct (message_block show SH _ _ _ Pk FM DM) as (bb & E & _). rewrite En in E. exists bb. split; [now rewrite <- E|left; exact E].
      - exfalso. apply Nk. destruct (found_in _ _ _ FO) as [Im E]. rewrite <- E. now apply in_map. }
    destruct PM as (bb & PM & IB). destruct (message_block show SH _ _ _ PM FM DM) as (bb' & E & _ & _ & RD). apply (f_equal (@List.tl chars)) in E. cbn [List.tl] in E. subst bb'.
    destruct (block_found n bb blocks [[]]) as (tl & T & E); [exact NO|now right|exact IB| |exact (eq_ind_r (shown show _ m) (RD tl T) E)].
    eapply Forall_impl; [|exact BL]. intros b (_ & x & r & -> & X & R & Q). exists x, r. split; [reflexivity|]. split; [exact X|]. split; [exact R|]. intros EX. destruct (Q EX) as (_ & [(mk & Fk & Pk)|[Nk _]] & _).
    - assert (mk = m) by (eapply found_unique; eassumption). subst mk. rewrite PM in Pk. assert (OI : forall a b : list chars, Ok a = Ok b -> a = b) by (intros u v W; now injection W). apply OI in Pk. exact (eq_sym (f_equal (@List.tl chars) Pk)).
    - exfalso. apply Nk. rewrite <- En. now apply in_map.
  Qed.

  (** ** Buses and nodes *)
  Definition titles (l : list chars) : list chars := flat_map (fun x => if inner x then [] else [removelast x]) l.
  Definition selected (items : list chars) (name : chars) : Prop := items = [] \/ In name items.
  Lemma chosen_iff items n : chosen items n = true <-> selected items n.
  Proof.
    unfold chosen, selected. destruct items as [|x l]; [split; auto|]. unfold chars_in. rewrite existsb_exists. split.
    - intros (y & I & E). right. unfold chars_eqb in E. destruct (list_eq_dec ascii_dec n y) as [->|]; [exact I|discriminate].
    - intros [E|I]; [discriminate|]. exists n. split; [exact I|]. unfold chars_eqb. now destruct (list_eq_dec ascii_dec n n).
  Qed.
  (** What is read of a bus *)
  Record bus_shown (b : abus) (l : list chars) : Prop := {
    bs_rate : rests (txt "  Baudrate: ") l = opt_list (b_rate b) decimal;
    bs_fd : rests (txt "  CAN-FD enabled: ") l = [yes_no (match b_fd_rate b with Some _ => true | None => false end)];
    bs_fd_rate : rests (txt "  FD Baudrate: ") l = opt_list (b_fd_rate b) decimal;
    bs_comments : rests (txt "  Comment[") l = map (fun p => fst p ++ txt "]: " ++ snd p) (texts_of (b_comments b)) }.
  Definition flat_bus (b : abus) : bool := name_ok (b_name b) && flat_comments (b_comments b).
  Lemma bus_block b : flat_bus b = true -> exists bb, bus_lines b = (b_name b ++ txt ":") :: bb /\ all_inner bb /\ all_flat (bus_lines b) /\ forall tl, tail_ok tl -> bus_shown b (bb ++ tl).
  Proof.
    unfold flat_bus. intros F. apply andb_prop in F. destruct F as [N C]. eexists. split; [reflexivity|]. split; [|split].
    - apply Forall_app. split; [now apply comment_forall|]. destruct (b_rate b), (b_fd_rate b); repeat constructor.
    - constructor; [apply flat_lit; [now apply flat_name|reflexivity]|]. apply Forall_app. split; [now apply flat_comment_lines|].
      destruct (b_rate b), (b_fd_rate b); repeat constructor; (apply flat_lit; [reflexivity|apply flat_decimal]).
    - intros tl T. assert (ND : forall p, (forall r, after p (txt "  " ++ txt "Comment[" ++ r) = None) -> rests p (comment_lines (txt "  ") (b_comments b)) = []) by (intros p H; apply rests_none, comment_forall, H).
      constructor; rewrite <- ?app_assoc, !rests_app; try (rewrite ND by reflexivity; destruct (b_rate b), (b_fd_rate b), T as [->| ->]; reflexivity).
      rewrite (comment_rests (txt "  ")). destruct (b_rate b), (b_fd_rate b), T as [->| ->]; cbn; now rewrite app_nil_r.
  Qed.
  Definition flat_node (n : anode) : bool := name_ok (nd_name n) && flat_comments (nd_comments n).
  Lemma titles_app a b : titles (a ++ b) = titles a ++ titles b. Proof. apply flat_map_app. Qed.
  Lemma titles_inner l : all_inner l -> titles l = [].
  Proof. induction 1 as [|x l H _ IH]; [reflexivity|]. unfold titles in *. cbn [flat_map]. now rewrite H, IH. Qed.
  Lemma titles_name n : name_ok n = true -> titles [n ++ txt ":"] = [n].
  Proof. intros N. unfold titles. cbn [flat_map]. rewrite header_outer by exact N. cbn [List.app]. f_equal. apply removelast_last. Qed.
  Lemma blocks_read {A} (name : A -> chars) (lines : A -> list chars) (S : A -> list chars -> Prop) l :
    (forall x, In x l -> name_ok (name x) = true /\ exists bb, lines x = (name x ++ txt ":") :: bb /\ all_inner bb /\ all_flat (lines x) /\ forall tl, tail_ok tl -> S x (bb ++ tl)) -> NoDup (map name l) ->
    titles (lines_of (written (flat_map lines l))) = map name l /\ forall x, In x l -> S x (block (name x) (lines_of (written (flat_map lines l)))).
  Proof.
    intros H D. assert (FL : all_flat (flat_map lines l)).
    { apply Forall_forall. intros y I. apply in_flat_map in I. destruct I as (x & I & Y). destruct (H x I) as (_ & bb & _ & _ & F & _). rewrite Forall_forall in F. now apply F. }
    rewrite split_written by exact FL. split.
    - rewrite titles_app. change (titles [[]]) with (@nil chars). rewrite app_nil_r. clear D FL. induction l as [|x l IH]; [reflexivity|]. cbn [flat_map map]. rewrite titles_app, IH by (intros; apply H; now right).
      destruct (H x (or_introl eq_refl)) as (N & bb & -> & I & _). change ((name x ++ txt ":") :: bb) with ([name x ++ txt ":"] ++ bb). rewrite titles_app, titles_name, titles_inner by assumption. reflexivity.
    - intros x I. destruct (H x I) as (N & bb & E & BI & _ & R). rewrite flat_map_concat_map.
      destruct (block_found (name x) bb (map lines l) [[]]) as (tl & T & EB); [exact N|now right|rewrite <- E; now apply in_map| |exact (eq_ind_r (S x) (R tl T) EB)].
      apply Forall_map, Forall_forall. intros y Iy. destruct (H y Iy) as (Ny & by' & Ey & Biy & _). exists (name y ++ txt ":"), by'. split; [exact Ey|]. split; [now apply header_outer|]. split; [exact Biy|].
      intros EN. apply header_inj in EN. assert (y = x).
      { clear - D I Iy EN. induction l as [|z l IH]; [destruct I|]. cbn [map] in D. inversion D as [|? ? D0 D1]; subst. destruct I as [->|I], Iy as [->|Iy]; auto; exfalso; apply D0; [rewrite <- EN|rewrite EN]; now apply in_map. }
      subst y. rewrite E in Ey. exact (eq_sym (f_equal (@List.tl chars) Ey)).
  Qed.
  (** The buses that are selected, in the order of the database; without names all of them *)
  Theorem C80_buses items buses : (forall b, In b buses -> flat_bus b = true) -> NoDup (map b_name buses) ->
    exists sel, (forall b, In b sel <-> In b buses /\ selected items (b_name b)) /\ (exists f, sel = filter f buses) /\
      titles (lines_of (written (list_buses items buses))) = map b_name sel /\
      forall b, In b sel -> bus_shown b (block (b_name b) (lines_of (written (list_buses items buses)))).
  Proof.
    intros F D. exists (filter (fun b => chosen items (b_name b)) buses). split; [intros b; rewrite filter_In, chosen_iff; reflexivity|]. split; [now eexists|].
    apply (blocks_read b_name bus_lines bus_shown).
    - intros b I. apply filter_In in I. destruct I as [I _]. split; [specialize (F b I); now apply andb_prop in F|]. apply bus_block, F, I.
    - clear F. induction buses as [|b l IH]; [constructor|]. cbn [map] in D. inversion D as [|? ? D0 D1]; subst. cbn [filter]. destruct (chosen items (b_name b)); [|now apply IH]. cbn [map]. constructor; [|now apply IH].
      intros I. apply D0. apply in_map_iff in I. destruct I as (x & E & I). apply filter_In in I. rewrite <- E. now apply in_map.
  Qed.
  Definition node_shown (n : anode) (l : list chars) : Prop := rests (txt "  Comment[") l = map (fun p => fst p ++ txt "]: " ++ snd p) (texts_of (nd_comments n)).
  Theorem C80_nodes items nodes : (forall n, In n nodes -> flat_node n = true) -> NoDup (map nd_name nodes) ->
    exists sel, (forall n, In n sel <-> In n nodes /\ selected items (nd_name n)) /\ (exists f, sel = filter f nodes) /\
      titles (lines_of (written (list_nodes items nodes))) = map nd_name sel /\
      forall n, In n sel -> node_shown n (block (nd_name n) (lines_of (written (list_nodes items nodes)))).
  Proof.
    intros F D. exists (filter (fun b => chosen items (nd_name b)) nodes). split; [intros b; rewrite filter_In, chosen_iff; reflexivity|]. split; [now eexists|].
    apply (blocks_read nd_name node_lines node_shown).
    - intros b I. apply filter_In in I. destruct I as [I _]. specialize (F b I). apply andb_prop in F. destruct F as [N C]. split; [exact N|]. exists (comment_lines (txt "  ") (nd_comments b)). split; [reflexivity|]. split; [|split].
      + now apply comment_forall.
      + constructor; [apply flat_lit; [now apply flat_name|reflexivity]|now apply flat_comment_lines].
      + intros tl T. unfold node_shown. rewrite rests_app, (comment_rests (txt "  ")). destruct T as [->| ->]; cbn; now rewrite app_nil_r.
    - clear F. induction nodes as [|b l IH]; [constructor|]. cbn [map] in D. inversion D as [|? ? D0 D1]; subst. cbn [filter]. destruct (chosen items (nd_name b)); [|now apply IH]. cbn [map]. constructor; [|now apply IH].
      intros I. apply D0. apply in_map_iff in I. destruct I as (x & E & I). apply filter_In in I. rewrite <- E. now apply in_map.
  Qed.

  (** ** Different messages are printed differently. *)
  Definition same_layout (g h : signal) : Prop := s_start g = s_start h /\ s_length g = s_length h /\ s_big g = s_big h /\ s_signed g = s_signed h /\ s_mux_sig g = s_mux_sig h.
  Lemma yes_no_inj a b : yes_no a = yes_no b -> a = b. Proof. destruct a, b; try reflexivity; discriminate. Qed.
  Lemma one_inj (a b : chars) : [a] = [b] -> a = b. Proof. intros H. exact (f_equal (hd []) H). Qed.
  Lemma txt_inj a b : txt a = txt b -> a = b.
  Proof. intros E. rewrite <- (string_of_list_ascii_of_string a), <- (string_of_list_ascii_of_string b). unfold txt in E. now rewrite E. Qed.
  Lemma first_split (c : ascii) x1 : forall x2 y1 y2, ~ In c x1 -> ~ In c x2 -> x1 ++ c :: y1 = x2 ++ c :: y2 -> x1 = x2.
  Proof.
    induction x1 as [|a x1 IH]; intros [|b x2] y1 y2 N1 N2 E; cbn in *; [reflexivity|injection E as <- _; exfalso; auto|injection E as -> _; exfalso; auto|].
    injection E as -> E. f_equal. eapply IH; [| |exact E]; auto.
  Qed.
  Lemma last_split (c : ascii) (x1 x2 y1 y2 : chars) : ~ In c y1 -> ~ In c y2 -> x1 ++ c :: y1 = x2 ++ c :: y2 -> y1 = y2.
  Proof.
    intros N1 N2 E. apply (f_equal (@rev ascii)) in E. rewrite !rev_app_distr in E. cbn [rev] in E. rewrite <- !app_assoc in E. cbn [List.app] in E.
    apply first_split in E; [|now rewrite <- in_rev|now rewrite <- in_rev]. rewrite <- (rev_involutive y1), E. apply rev_involutive.
  Qed.
  Lemma decimal_no z c : is_digit c = false -> c <> "-"%char -> ~ In c (decimal z).
  Proof.
    intros D M. assert (P : forall z, 0 <= z -> ~ In c (decimal z)).
    { intros y Y I. assert (H := decimal_digits y Y). rewrite forallb_forall in H. specialize (H c I). congruence. }
    destruct (Z_lt_le_dec z 0) as [N|N]; [|now apply P]. rewrite decimal_neg by exact N. intros [E|I]; [congruence|]. revert I. apply P. lia.
  Qed.
  Lemma identified_inj a b t : identified a t -> identified b t -> a = b.
  Proof.
    intros (h & _ & ->) (k & _ & E). apply decimal_inj.
    assert (X : forall u h, txt "0x" ++ h ++ txt " (" ++ decimal u ++ txt ")" = (txt "0x" ++ h ++ txt " ") ++ "("%char :: (decimal u ++ txt ")")) by (intros u r; now rewrite <- !app_assoc).
    rewrite !X in E. apply last_split in E; [apply app_inj_tail in E; apply E| |]; (intros I; apply in_app_or in I; destruct I as [I|I]; [revert I; apply decimal_no; [reflexivity|discriminate]|destruct I as [I|[]]; discriminate]).
  Qed.
  Lemma shown_same sp m m' b : shown show sp m b -> shown show sp m' b -> lm_contained m = None -> lm_contained m' = None -> am_header (lm_info m) = None -> am_header (lm_info m') = None ->
    m_frame_id (lm_core m) = m_frame_id (lm_core m') /\ m_length (lm_core m) = m_length (lm_core m') /\ m_extended (lm_core m) = m_extended (lm_core m') /\ am_fd (lm_info m) = am_fd (lm_info m') /\
    Forall2 (fun s s' => s_name (a_sig s) = s_name (a_sig s') /\ same_layout (a_sig s) (a_sig s')) (am_signals (lm_info m)) (am_signals (lm_info m')).
  Proof.
    intros (F & D & _) (F' & D' & _) C C' H H'. specialize (D C). specialize (D' C'). rewrite C in F. rewrite C' in F'.
    destruct (f_frame _ _ _ _ _ F H) as ((t & I & E) & _ & EX & FD & SZ & _). destruct (f_frame _ _ _ _ _ F' H') as ((t' & I' & E') & _ & EX' & FD' & SZ' & _).
    rewrite E in E'. apply one_inj in E'. subst t'. rewrite EX in EX'. rewrite FD in FD'. cbn [m_length] in SZ, SZ'. rewrite SZ in SZ'. apply one_inj in EX', FD', SZ'.
    split; [exact (identified_inj _ _ _ I I')|]. split; [apply decimal_inj; now apply app_inv_tail in SZ'|]. split; [now apply yes_no_inj|]. split; [now apply yes_no_inj|].
    destruct D as [N S]. destruct D' as [N' S']. rewrite N in N'.
    assert (K : forall l l', map (fun s => txt (s_name (a_sig s))) l = map (fun s => txt (s_name (a_sig s))) l' -> (forall s, In s l -> In s (am_signals (lm_info m))) -> (forall s, In s l' -> In s (am_signals (lm_info m'))) ->
      Forall2 (fun s s' => s_name (a_sig s) = s_name (a_sig s') /\ same_layout (a_sig s) (a_sig s')) l l').
    { induction l as [|s l IH]; intros [|s' l'] E0 I1 I2; try discriminate; [constructor|]. cbn [map] in E0.
      assert (E1 := f_equal (hd []) E0). assert (E2 := f_equal (@List.tl chars) E0). cbn [hd List.tl] in E1, E2. constructor; [|apply IH; [exact E2|intros; apply I1; now right|intros; apply I2; now right]].
      assert (G := S s (I1 s (or_introl eq_refl))). assert (G' := S' s' (I2 s' (or_introl eq_refl))). rewrite <- E1 in G'. split; [now apply txt_inj|]. unfold same_layout.
      assert (A := d_start _ _ _ _ G). rewrite (d_start _ _ _ _ G') in A. assert (B := d_length _ _ _ _ G). rewrite (d_length _ _ _ _ G') in B.
      assert (O := d_order _ _ _ _ G). rewrite (d_order _ _ _ _ G') in O. assert (Q := d_signed _ _ _ _ G). rewrite (d_signed _ _ _ _ G') in Q.
      assert (M := d_selected_by _ _ _ _ G). rewrite (d_selected_by _ _ _ _ G') in M. apply one_inj in A, B, O, Q.
      split; [symmetry; now apply decimal_inj|]. split; [symmetry; apply decimal_inj; now apply app_inv_tail in B|]. split; [destruct (s_big (a_sig s)), (s_big (a_sig s')); try reflexivity; discriminate|].
      split; [symmetry; now apply yes_no_inj|]. destruct (s_mux_sig (a_sig s)) as [x|], (s_mux_sig (a_sig s')) as [y|]; try discriminate; [|reflexivity]. cbn [opt_list] in M. apply one_inj, txt_inj in M. now subst. }
    now apply K.
  Qed.
  (** If the same text is written for two databases then the messages in it have the same identifiers, lengths and kinds, and the
      same signals in the same order, at the same places, with the same coding and the same selectors. *)
  Theorem C80_told_apart a db db' out out' n m m' : flat_db a db -> flat_db a db' -> In n (la_items a) -> found db n m -> found db' n m' ->
    list_messages show a db = Ok out -> list_messages show a db' = Ok out' -> written out = written out' ->
    lm_contained m = None -> lm_contained m' = None -> am_header (lm_info m) = None -> am_header (lm_info m') = None ->
    m_frame_id (lm_core m) = m_frame_id (lm_core m') /\ m_length (lm_core m) = m_length (lm_core m') /\ m_extended (lm_core m) = m_extended (lm_core m') /\ am_fd (lm_info m) = am_fd (lm_info m') /\
    Forall2 (fun s s' => s_name (a_sig s) = s_name (a_sig s') /\ same_layout (a_sig s) (a_sig s')) (am_signals (lm_info m)) (am_signals (lm_info m')).
  Proof.
    intros F F' I FO FO' H H' E C C' A A'. assert (S := C80_shown a db out n m F (or_introl I) FO H). assert (S' := C80_shown a db' out' n m' F' (or_introl I) FO' H').
    rewrite <- E in S'. now apply (shown_same (negb (la_skip_specifics a)) m m' (block n (lines_of (written out)))).
  Qed.
  (** Whole factors are never rounded away: if no factor is shown then it is 1 and the offset 0. *)
  Theorem C80_whole_factors i s sec z w : described show i s sec -> conv_scale (s_conv (a_sig s)) = NInt z -> conv_offset (s_conv (a_sig s)) = NInt w ->
    (says "Scaling factor" sec = [] <-> z = 1 /\ w = 0).
  Proof.
    intros D Z W. assert (V : scaled_visibly (s_conv (a_sig s)) <-> ~ (z = 1 /\ w = 0)).
    { unfold scaled_visibly. rewrite Z, W. unfold py_eq, py_gt, py_lt, py_compare. change (NInt 0) with (NInt 0). unfold above_one, below_one, cmp_Z_float. 
      assert (O : (match Some (w ?= 0) with Some Eq => true | _ => false end = false) <-> w <> 0) by (destruct (Z.compare_spec w 0); split; intros; try lia; try discriminate; reflexivity).
      change (0 <=? -52) with false. change (0 <=? -53) with false. cbn match. change (2 ^ (- -52)) with 4503599627370496. change (2 ^ (- -53)) with 9007199254740992. change (signed_Z false 4503599627820856) with 4503599627820856. change (signed_Z false 9007199253840272) with 9007199253840272.
      assert (P : (match (z * 4503599627370496 ?= 4503599627820856) with Gt => true | _ => false end = true) <-> 1 < z) by (destruct (Z.compare_spec (z * 4503599627370496) 4503599627820856); split; intros; try lia; try discriminate; reflexivity).
      assert (Q : (match (z * 9007199254740992 ?= 9007199253840272) with Lt => true | _ => false end = true) <-> z < 1) by (destruct (Z.compare_spec (z * 9007199254740992) 9007199253840272); split; intros; try lia; try discriminate; reflexivity).
      rewrite O, P, Q. lia. }
    split.
    - intros E. destruct (Z.eq_dec z 1) as [Hz|Hz], (Z.eq_dec w 0) as [Hw|Hw]; [auto|exfalso..]; (assert (S : scaled_visibly (s_conv (a_sig s))) by (apply V; lia)); destruct (d_scaled _ _ _ _ D S) as [_ X]; rewrite X in E; discriminate.
    - intros X. assert (N : ~ scaled_visibly (s_conv (a_sig s))) by (rewrite V; tauto). now destruct (d_unscaled _ _ _ _ D N).
  Qed.
End Proofs.

(** ** Concrete cases *)
(** Whole numbers in decimal digits; other numbers are not used below. *)
Definition show_ex (n : num) : chars := match n with NInt z => decimal z | NFlt _ => txt "0.5" end.
Lemma show_ex_ok : shows_numbers show_ex.
Proof.
  intros [z|f]; [|reflexivity]. cbn [show_ex]. unfold name_ok. rewrite flat_decimal. cbn [andb]. destruct (Z_lt_le_dec z 0) as [N|N]; [now rewrite decimal_neg|].
  destruct (decimal z) as [|c r] eqn:D; [now apply decimal_nonnil in D|]. assert (H := decimal_digits z N). rewrite D in H. cbn [forallb] in H. apply andb_prop in H. destruct H as [H _].
  now rewrite (digit_not c " "%char H eq_refl).
Qed.
Definition plain_signal (s : signal) : asignal := mkASignal s None None None None None None [] None.
Definition ex_signals : list asignal :=
  match Prop_TreeDraw.tree_sigs with
  | mode :: sub :: speed :: rest =>
      mkASignal mode None None None None None (Some [(txt "EN", txt "How it runs")]) [txt "B"; txt "A"] (Some [mkNamed (NInt 0) (txt "Off") None; mkNamed (NInt 1) (txt "On") (Some [(txt "EN", txt "Runs")])]) ::
      plain_signal sub ::
      mkASignal (mkSignal (s_name speed) (s_start speed) (s_length speed) true (s_signed speed) (CNum (CLinInt 2 0)) (Some (NInt (-10))) (Some (NInt 20)) false (s_mux_ids speed) (s_mux_sig speed))
        (Some (NInt 3)) (Some (VNum (NInt 6))) None None (Some (txt "m/s")) None [] None :: map plain_signal rest
  | _ => []
  end.
Definition ex_info : ainfo := mkInfo Prop_TreeDraw.tree_msg (Some (txt "Can0")) false None (Some 100) (Some [(txt "EN", txt "A tree")]) [txt "Z"; txt "C"] ex_signals no_specifics.
Definition ex_inside (name : string) (id : Z) : ainfo :=
  mkInfo (mkMessage id false name 1 255 [] true (m_codec Prop_TreeDraw.tree_msg) (m_tree Prop_TreeDraw.tree_msg)) None false (Some id) None None [] [] (mkSpec [] false false None (Some (mkE2E (Some (txt "PROFILE_02")) [1; 2] 8))).
Definition ex_message (name : string) (id : Z) (ext : bool) : message := mkMessage id ext name 2 255 [] true (m_codec Prop_TreeDraw.tree_msg) (m_tree Prop_TreeDraw.tree_msg).
Definition ex_box : lmessage := mkLMsg (mkInfo (ex_message "Box" 5 true) None true None None None [] [] no_specifics) true (Some [ex_inside "One" 17; ex_inside "Two" 18]).
Definition ex_tree : lmessage := mkLMsg ex_info false None.
Definition ex_db : list lmessage := [ex_tree; ex_box].
Definition ask (items : list string) (all nox non : bool) : list_args := mkArgs (map txt items) all nox non false.
Definition ex_shown : list string :=
  ["No message named ""Cup"" has been found in input file.";
   "Tree:"; "  Comment[EN]: A tree"; "  Bus: Can0"; "  Sending ECUs: C, Z"; "  Frame ID: 0x123 (291)"; "  Size: 8 bytes"; "  Is extended frame: False"; "  Is CAN-FD frame: False"; "  Cycle time: 100 ms";
   "  Signal tree:"; ""] ++ map (fun l => String.append "    " l) Prop_TreeDraw.tree_shown ++
  [""; "  Signal details:";
   "    Mode:"; "      Comment[EN]: How it runs"; "      Receiving ECUs: A, B"; "      Internal type: Multiplex Selector"; "      Start bit: 0"; "      Length: 4 bits"; "      Byte order: little_endian"; "      Is signed: False";
   "      Named values:"; "        0: Off"; "        1: On"; "          Comment[EN]: Runs";
   "    Sub:"; "      Internal type: Multiplex Selector"; "      Selector signal: Mode"; "      Selector values: On"; "      Start bit: 8"; "      Length: 3 bits"; "      Byte order: little_endian"; "      Is signed: False";
   "    Speed:"; "      Internal type: Integer"; "      Selector signal: Sub"; "      Selector values: 12, 3"; "      Start bit: 16"; "      Length: 8 bits"; "      Byte order: big_endian"; "      Unit: m/s"; "      Initial value: 6 m/s"; "      Is signed: True";
   "      Minimum: -10 m/s"; "      Maximum: 20 m/s"; "      Offset: 0 m/s"; "      Scaling factor: 2 m/s";
   "    Gear:"; "      Internal type: Integer"; "      Selector signal: Mode"; "      Selector values: On, 9"; "      Start bit: 32"; "      Length: 8 bits"; "      Byte order: little_endian"; "      Is signed: False";
   "    State:"; "      Internal type: Integer"; "      Start bit: 48"; "      Length: 8 bits"; "      Byte order: little_endian"; "      Is signed: False";
   "Box:"; "  Frame ID: 0x5 (5)"; "  Maximum Size: 2 bytes"; "  Is extended frame: True"; "  Is CAN-FD frame: True"; "  Is network management frame: False"; "  Is secured: False";
   "  Potentially contained messages:"; ""; "    One (0x11)"; "    Two (0x12)"; ""; "  Potentially contained message details:";
   "    One:"; "      Header ID: 0x11 (17)"; "      Size: 1 bytes"; "      Is network management frame: False"; "      End-to-end properties:"; "        Category: PROFILE_02"; "        Data IDs: [1, 2]"; "        Protected size: 8 bytes"; "      Is secured: False";
   "    Two:"; "      Header ID: 0x12 (18)"; "      Size: 1 bytes"; "      Is network management frame: False"; "      End-to-end properties:"; "        Category: PROFILE_02"; "        Data IDs: [1, 2]"; "        Protected size: 8 bytes"; "      Is secured: False"].
Lemma nodup_names (i : ainfo) : DbcFit.nodup_by String.eqb (map (fun s => s_name (a_sig s)) (am_signals i)) = true -> distinct i.
Proof. intros H. unfold distinct. now apply (DbcFit.nodup_by_spec String.eqb String.eqb_spec). Qed.
Lemma ex_flat items all nox non : forallb flat (map txt items) = true -> flat_db (ask items all nox non) ex_db.
Proof.
  intros F. split; [exact F|]. intros m [<-|[<-|[]]]; (split; [vm_compute; reflexivity|]); split.
  - apply nodup_names. vm_compute. reflexivity.
  - discriminate.
  - constructor.
  - intros cs c E I. injection E as <-. destruct I as [<-|[<-|[]]]; constructor.
Qed.
Example C80_hypotheses : shows_numbers show_ex /\ flat_db (ask ["Cup"; "Tree"; "Box"] false true false) ex_db /\ found ex_db (txt "Tree") ex_tree /\ found ex_db (txt "Box") ex_box /\
  list_messages show_ex (ask ["Cup"; "Tree"; "Box"] false true false) ex_db = Ok (map txt ex_shown) /\
  says "Start bit" (section (txt "Speed") (block (txt "Tree") (lines_of (written (map txt ex_shown))))) = [txt "16"] /\
  says2 "Size" (block (txt "Two") (contained_lines (block (txt "Box") (lines_of (written (map txt ex_shown)))))) = [txt "1 bytes"].
Proof.
  split; [exact show_ex_ok|]. split; [apply ex_flat; reflexivity|]. split; [exists [], [ex_box]; split; [reflexivity|]; split; [reflexivity|]; intros [H|[]]; discriminate|].
  split; [exists [ex_tree], []; split; [reflexivity|]; split; [reflexivity|]; intros []|]. split; [vm_compute; reflexivity|]. split; vm_compute; reflexivity.
Qed.
Example C80_names_hypotheses : list_messages show_ex (ask [] false false false) ex_db = Ok [txt "Box"; txt "Tree"] /\ list_messages show_ex (ask [] false true false) ex_db = Ok [txt "Tree"] /\
  passes (ask [] false true false) ex_tree /\ ~ passes (ask [] false true false) ex_box.
Proof. split; [vm_compute; reflexivity|]. split; [vm_compute; reflexivity|]. split; [split; [discriminate|reflexivity]|]. intros [H _]. discriminate (H eq_refl). Qed.
Example C80_buses_hypotheses :
  let bs := [mkBus (txt "Can0") (Some [(txt "EN", txt "First")]) (Some 500000) (Some 2000000); mkBus (txt "Can1") None None None] in
  (forall b, In b bs -> flat_bus b = true) /\ NoDup (map b_name bs) /\ selected [txt "Can0"] (txt "Can0") /\
  list_buses [txt "Can0"] bs = map txt ["Can0:"; "  Comment[EN]: First"; "  Baudrate: 500000"; "  CAN-FD enabled: True"; "  FD Baudrate: 2000000"].
Proof.
  split; [intros b [<-|[<-|[]]]; reflexivity|]. split; [constructor; [intros [H|[]]; discriminate|constructor; [intros []|constructor]]|]. split; [right; now left|]. vm_compute. reflexivity.
Qed.
Example C80_nodes_hypotheses :
  let ns := [mkANode (txt "Door") (Some [(txt "EN", txt "Front")]); mkANode (txt "Roof") None] in
  (forall n, In n ns -> flat_node n = true) /\ NoDup (map nd_name ns) /\ list_nodes [] ns = map txt ["Door:"; "  Comment[EN]: Front"; "Roof:"].
Proof. split; [intros b [<-|[<-|[]]]; reflexivity|]. split; [constructor; [intros [H|[]]; discriminate|constructor; [intros []|constructor]]|]. vm_compute. reflexivity. Qed.

(** ** What the command does not do *)
Definition small (name : string) (id : Z) (ext : bool) : lmessage := mkLMsg (mkInfo (ex_message name id ext) None false None None None [] [] no_specifics) false None.
(** Of two messages with one name --print-all shows the second twice and the first not at all. *)
Theorem C80_same_names_refuted : exists db out, list_messages show_ex (ask [] true false false) db = Ok out /\
  (exists m, In m db /\ m_frame_id (lm_core m) = 1 /\ passes (ask [] true false false) m) /\ count (txt "  Frame ID: 0x2 (2)") out = 2%nat /\ count (txt "  Frame ID: 0x1 (1)") out = 0%nat.
Proof.
  exists [small "M" 1 false; small "M" 2 false]. eexists. split; [vm_compute; reflexivity|]. split; [|split; vm_compute; reflexivity].
  exists (small "M" 1 false). split; [now left|]. split; [reflexivity|]. split; [discriminate|reflexivity].
Qed.
(** Messages that are given by name are shown although frames of their kind are excluded. *)
Theorem C80_excluded_refuted : exists db m out, In m db /\ ~ passes (ask ["M"] false true false) m /\ list_messages show_ex (ask ["M"] false true false) db = Ok out /\ In (txt "  Is extended frame: True") out.
Proof.
  exists [small "M" 1 true], (small "M" 1 true). eexists. split; [now left|]. split; [intros [H _]; discriminate (H eq_refl)|]. split; [vm_compute; reflexivity|]. vm_compute. do 3 right. now left.
Qed.
(** A comment of two lines can pass for a field. *)
Theorem C80_comment_refuted : exists m out, am_cycle (lm_info m) = None /\ list_messages show_ex (ask ["M"] false false false) [m] = Ok out /\ says2 "Cycle time" (block (txt "M") (lines_of (written out))) = [txt "7 ms"].
Proof.
  exists (mkLMsg (mkInfo (ex_message "M" 1 false) None false None None (Some [(txt "EN", txt "Slow" ++ newline :: txt "  Cycle time: 7 ms")]) [] [] no_specifics) false None). eexists.
  split; [reflexivity|]. split; vm_compute; reflexivity.
Qed.
(** A factor next to 1 is not shown: such a signal is printed like one that is not scaled. *)
Definition near_one : num := NFlt (S754_finite false 4503599627370497 (-52)).
Theorem C80_factor_refuted : py_eq near_one (NInt 1) = false /\
  forall g, signal_lines show_ex [] [] (plain_signal (mkSignal "S" 0 8 false g (CNum (CLin near_one (NInt 0) true)) None None false None None)) =
            signal_lines show_ex [] [] (plain_signal (mkSignal "S" 0 8 false g (CNum (CIdent true)) None None false None None)).
Proof. split; [vm_compute; reflexivity|]. intros []; vm_compute; reflexivity. Qed.
