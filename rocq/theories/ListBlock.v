(** ListBlock: the block that the list command prints for a message can be read (lemmas for C80). *)
From Coq Require Import Ascii Floats.SpecFloat Permutation Sorting.Sorted.
From Verif Require Import Base PyNum Conversion Signal Message CSource CNames Regex DbcNames DbcToken Logreader DecodeCmd Xml Arxml ArxmlLoad DictLemmas DecText ListCmd ListRead.
From Verif Require LayoutSpec TreeDraw Prop_DbcNames Prop_Cdd Prop_DecodeCmd TreeProofs.
Local Open Scope string_scope.
Local Open Scope Z_scope.
Local Open Scope list_scope.

Lemma Forall2_weaken {A B} (P Q : A -> B -> Prop) l l' : (forall a b, P a b -> Q a b) -> Forall2 P l l' -> Forall2 Q l l'.
Proof. intros H. induction 1; constructor; auto. Qed.
Section Proofs.
  Context (show : num -> chars) (SH : shows_numbers show).
  (** ** The fields of a message *)
  Definition bus_part (o : option chars) : list chars := match o with Some (c :: b) => [txt "  Bus: " ++ c :: b] | _ => [] end.
  Definition sender_part (l : list chars) : list chars := match l with [] => [] | _ => [txt "  Sending ECUs: " ++ comma_join (sorted_texts l)] end.
  Definition frame_part (container : bool) (i : ainfo) : list chars :=
    match am_header i with
    | None => [txt "  Frame ID: " ++ hex_and_decimal (m_frame_id (am_core i));
               (if container then txt "  Maximum Size: " else txt "  Size: ") ++ decimal (m_length (am_core i)) ++ txt " bytes";
               txt "  Is extended frame: " ++ py_bool (m_extended (am_core i)); txt "  Is CAN-FD frame: " ++ py_bool (am_fd i)]
    | Some h => [txt "  Header ID: " ++ hex_and_decimal h; txt "  Size: " ++ decimal (m_length (am_core i)) ++ txt " bytes"]
    end.
  Definition e2e_part (o : option e2e) : list chars :=
    match o with
    | None => []
    | Some e => [txt "  End-to-end properties:"; txt "    Category: " ++ or_none (e_category e);
                 txt "    Data IDs: [" ++ comma_join (map decimal (e_ids e)) ++ txt "]"; txt "    Protected size: " ++ decimal (e_length e) ++ txt " bytes"]
    end.
  Definition secoc_part (o : option secoc) : list chars :=
    match o with
    | None => []
    | Some c => [txt "  Security properties:"; txt "    Authentication algorithm: " ++ or_none (so_auth c);
                 txt "    Freshness algorithm: " ++ or_none (so_fresh c); txt "    Data ID: " ++ int_or_none (so_data_id c);
                 txt "    Authentication transmit bits: " ++ int_or_none (so_auth_tx c);
                 txt "    Freshness counter size: " ++ int_or_none (so_fresh_len c) ++ txt " bits";
                 txt "    Freshness counter transmit size: " ++ int_or_none (so_fresh_tx c) ++ txt " bits";
                 txt "    Secured size: " ++ decimal (so_payload c) ++ txt " bytes"]
    end.
  Definition spec_part (autosar : bool) (sp : specifics) : list chars :=
    if autosar then
      [txt "  Is network management frame: " ++ py_bool (sp_nm sp)] ++ e2e_part (sp_e2e sp) ++
      [txt "  Is secured: " ++ py_bool (match sp_secoc sp with Some _ => true | None => false end)] ++ secoc_part (sp_secoc sp)
    else [].
  Definition cycle_part (o : option Z) : list chars := opt_line o (fun z => txt "  Cycle time: " ++ show (NInt z) ++ txt " ms").
  Definition head_body (autosar container : bool) (i : ainfo) : list chars :=
    comment_lines (txt "  ") (am_comments i) ++ bus_part (am_bus i) ++ sender_part (am_senders i) ++ frame_part container i ++ cycle_part (am_cycle i) ++ spec_part autosar (am_spec i).
  Lemma head_eq specifics autosar container i : head_part show [] specifics autosar container i = (txt (m_name (am_core i)) ++ txt ":") :: head_body (specifics && autosar) container i.
  Proof.
    unfold head_part, head_body. cbn [List.app]. apply (f_equal (cons _)). repeat apply (f_equal2 (@List.app chars)); try reflexivity.
    now destruct (am_senders i).
  Qed.
  (** What holds of all lines that begin with the known words *)
  Lemma head_forall (P : chars -> Prop) autosar container i :
    (forall t, P (txt "  Comment[" ++ t)) -> (forall t, P (txt "  Bus: " ++ t)) -> (forall t, P (txt "  Sending ECUs: " ++ t)) ->
    (forall t, P (txt "  Frame ID: " ++ t)) -> (forall t, P (txt "  Maximum Size: " ++ t)) -> (forall t, P (txt "  Size: " ++ t)) ->
    (forall t, P (txt "  Is " ++ t)) -> (forall t, P (txt "  Header ID: " ++ t)) -> (forall t, P (txt "  Cycle time: " ++ t)) ->
    P (txt "  End-to-end properties:") -> P (txt "  Security properties:") ->
    (forall c t, Ascii.eqb c " " = false -> P (txt "    " ++ c :: t)) -> Forall P (head_body autosar container i).
  Proof.
    intros H1 H2 H3 H4 H5 H6 H7 H8 H9 H10 H11 H12. unfold head_body. repeat (apply Forall_app; split).
    - now apply comment_forall.
    - destruct (am_bus i) as [[|]|]; repeat constructor. apply H2.
    - destruct (am_senders i); repeat constructor. apply H3.
    - unfold frame_part. destruct (am_header i); [|destruct container]; repeat constructor; auto; [apply (H7 (txt "extended frame: " ++ _))|apply (H7 (txt "CAN-FD frame: " ++ _))|apply (H7 (txt "extended frame: " ++ _))|apply (H7 (txt "CAN-FD frame: " ++ _))].
    - destruct (am_cycle i); repeat constructor. apply H9.
    - unfold spec_part. destruct autosar; [|constructor]. repeat (apply Forall_app; split).
      + repeat constructor. apply (H7 (txt "network management frame: " ++ _)).
      + destruct (sp_e2e (am_spec i)); repeat constructor; auto; [apply (H12 "C"%char (txt "ategory: " ++ _))|apply (H12 "D"%char (txt "ata IDs: [" ++ _))|apply (H12 "P"%char (txt "rotected size: " ++ _))]; reflexivity.
      + repeat constructor. apply (H7 (txt "secured: " ++ _)).
      + destruct (sp_secoc (am_spec i)); repeat constructor; auto;
          [apply (H12 "A"%char (txt "uthentication algorithm: " ++ _))|apply (H12 "F"%char (txt "reshness algorithm: " ++ _))|apply (H12 "D"%char (txt "ata ID: " ++ _))|apply (H12 "A"%char (txt "uthentication transmit bits: " ++ _))
          |apply (H12 "F"%char (txt "reshness counter size: " ++ _))|apply (H12 "F"%char (txt "reshness counter transmit size: " ++ _))|apply (H12 "S"%char (txt "ecured size: " ++ _))]; reflexivity.
  Qed.

  Lemma none_bus p o : (forall t, after p (txt "  Bus: " ++ t) = None) -> rests p (bus_part o) = [].
  Proof. intros H. apply rests_none. destruct o as [[|]|]; repeat constructor. apply H. Qed.
  Lemma none_sender p l : (forall t, after p (txt "  Sending ECUs: " ++ t) = None) -> rests p (sender_part l) = [].
  Proof. intros H. apply rests_none. destruct l; repeat constructor. apply H. Qed.
  Lemma none_cycle p o : (forall t, after p (txt "  Cycle time: " ++ t) = None) -> rests p (cycle_part o) = [].
  Proof. intros H. apply none_opt. intros z. apply H. Qed.
  Lemma none_frame p c i : (forall t, after p (txt "  Frame ID: " ++ t) = None) -> (forall t, after p (txt "  Header ID: " ++ t) = None) -> (forall t, after p (txt "  Maximum Size: " ++ t) = None) -> (forall t, after p (txt "  Size: " ++ t) = None) ->
    (forall t, after p (txt "  Is extended frame: " ++ t) = None) -> (forall t, after p (txt "  Is CAN-FD frame: " ++ t) = None) -> rests p (frame_part c i) = [].
  Proof. intros. apply rests_none. unfold frame_part. destruct (am_header i), c; repeat constructor; auto. Qed.
  Lemma none_comments2 p c : (forall r, after p (txt "  " ++ txt "Comment[" ++ r) = None) -> rests p (comment_lines (txt "  ") c) = [].
  Proof. intros H. apply rests_none, comment_forall, H. Qed.
  Ltac none :=
    match goal with
    | |- rests _ (comment_lines _ _) = [] => apply none_comments2
    | |- rests _ (bus_part _) = [] => apply none_bus
    | |- rests _ (sender_part _) = [] => apply none_sender
    | |- rests _ (frame_part _ _) = [] => apply none_frame
    | |- rests _ (cycle_part _) = [] => apply none_cycle
    | T : tail_ok ?x |- rests _ ?x = [] => destruct T as [->| ->]
    end; intros; reflexivity.
  Ltac sole := repeat match goal with |- context [rests ?p ?X] => let H := fresh in assert (H : rests p X = []) by none; rewrite H; clear H end; cbn [List.app]; rewrite ?app_nil_r.
  Lemma frontedI autosar container i b tl : front b = head_body autosar container i ++ tl -> tail_ok tl -> fronted show autosar container i b.
  Proof.
    intros E T. constructor.
    - intros H. destruct container; (split; [exists (hex_and_decimal (m_frame_id (am_core i))); split; [apply identified_ok|]|repeat split]); unfold says2; rewrite E; unfold head_body; rewrite !rests_app; sole;
        unfold frame_part, spec_part; rewrite H; (destruct autosar; [destruct (sp_e2e (am_spec i)), (sp_secoc (am_spec i))|]; reflexivity).
    - intros h H. split; [exists (hex_and_decimal h); split; [apply identified_ok|]|repeat split]; unfold says2; rewrite E; unfold head_body; rewrite !rests_app; sole;
        unfold frame_part, spec_part; rewrite H; (destruct autosar; [destruct (sp_e2e (am_spec i)), (sp_secoc (am_spec i))|]; reflexivity).
    - unfold says2; rewrite E; unfold head_body; rewrite !rests_app; sole. unfold spec_part. destruct (am_bus i) as [[|]|]; (destruct autosar; [destruct (sp_e2e (am_spec i)), (sp_secoc (am_spec i))|]; reflexivity).
    - unfold says2; rewrite E; unfold head_body; rewrite !rests_app; sole. assert (X : rests (txt "  " ++ txt "Sending ECUs" ++ txt ": ") (spec_part autosar (am_spec i)) = []).
      { unfold spec_part. destruct autosar; [destruct (sp_e2e (am_spec i)), (sp_secoc (am_spec i))|]; reflexivity. }
      rewrite X, app_nil_r. destruct (am_senders i) as [|a l] eqn:S; [left; now split|]. change (rests _ _) with [comma_join (sorted_texts (a :: l))]. now apply enumerated_ok.
    - unfold says2; rewrite E; unfold head_body; rewrite !rests_app; sole. unfold spec_part. destruct (am_cycle i); (destruct autosar; [destruct (sp_e2e (am_spec i)), (sp_secoc (am_spec i))|]; reflexivity).
    - rewrite E. unfold head_body. rewrite !rests_app. sole. assert (X : rests (txt "  Comment[") (spec_part autosar (am_spec i)) = []).
      { unfold spec_part. destruct autosar; [destruct (sp_e2e (am_spec i)), (sp_secoc (am_spec i))|]; reflexivity. }
      rewrite X, app_nil_r. apply (comment_rests (txt "  ")).
    - unfold says2; rewrite E; unfold head_body; rewrite !rests_app; sole. unfold spec_part. destruct autosar; [destruct (sp_nm (am_spec i)), (sp_e2e (am_spec i)), (sp_secoc (am_spec i))|]; reflexivity.
    - unfold says2; rewrite E; unfold head_body; rewrite !rests_app; sole. unfold spec_part. destruct autosar; [destruct (sp_e2e (am_spec i)), (sp_secoc (am_spec i))|]; reflexivity.
    - cbv zeta. split; [|split]; [| |exists (map decimal (match (if autosar then sp_e2e (am_spec i) else None) with Some e => e_ids e | None => [] end)), (comma_join (map decimal (match (if autosar then sp_e2e (am_spec i) else None) with Some e => e_ids e | None => [] end)));
        split; [|split; [apply comma_separated|]]].
      3: { induction (match _ with Some e => e_ids e | None => [] end); constructor; auto. }
      all: unfold says4; rewrite E; unfold head_body; rewrite !rests_app; sole; unfold spec_part; destruct autosar; [destruct (sp_e2e (am_spec i)), (sp_secoc (am_spec i))|]; reflexivity.
    - cbv zeta. repeat split; unfold says4; rewrite E; unfold head_body; rewrite !rests_app; sole; unfold spec_part; (destruct autosar; [destruct (sp_e2e (am_spec i)), (sp_secoc (am_spec i))|]; reflexivity).
  Qed.

  (** ** Texts of one line *)
  Lemma flat_app a b : flat (a ++ b) = flat a && flat b. Proof. apply forallb_app. Qed.
  Lemma flat_lit p x : flat p = true -> flat x = true -> flat (p ++ x) = true.
  Proof. intros A B. now rewrite flat_app, A, B. Qed.
  Lemma flat_digits l : forallb is_digit l = true -> flat l = true.
  Proof.
    unfold flat. induction l as [|c l IH]; [reflexivity|]. cbn [forallb]. intros H. apply andb_prop in H. destruct H as [H0 H]. rewrite (IH H), andb_true_r.
    rewrite (digit_not c newline H0); reflexivity.
  Qed.
  Lemma flat_decimal z : flat (decimal z) = true.
  Proof.
    destruct (Z_lt_le_dec z 0) as [N|P]; [|now apply flat_digits, decimal_digits]. rewrite decimal_neg by assumption.
    change (flat ("-"%char :: decimal (- z))) with (flat (decimal (- z))). apply flat_digits, decimal_digits. lia.
  Qed.
  Lemma flat_hexl w : forall n, flat (hexl w n) = true.
  Proof.
    induction w as [|w IH]; intros n; [reflexivity|]. cbn [hexl]. apply flat_lit; [apply IH|]. unfold hexl_digit.
    assert (H : (Z.to_nat (n mod 16) < 16)%nat) by (assert (X := Z.mod_pos_bound n 16); lia). generalize (Z.to_nat (n mod 16)) H. clear. intros k H. do 16 (destruct k as [|k]; [reflexivity|]). lia.
  Qed.
  Lemma flat_hex w n : flat (hex_text w n) = true. Proof. apply flat_hexl. Qed.
  Lemma flat_comma l : forallb flat l = true -> flat (comma_join l) = true.
  Proof.
    induction l as [|a l IH]; [reflexivity|]. cbn [forallb]. intros H. apply andb_prop in H. destruct H as [A H]. destruct l as [|b l]; [exact A|].
    change (comma_join (a :: b :: l)) with (a ++ txt ", " ++ comma_join (b :: l)). apply flat_lit; [exact A|]. apply flat_lit; [reflexivity|]. now apply IH.
  Qed.
  Lemma flat_sorted l : forallb flat l = true -> forallb flat (sorted_texts l) = true.
  Proof. intros H. rewrite forallb_forall in *. intros x I. apply H. eapply Permutation_in; [|exact I]. apply sorted_py_perm. Qed.
  Lemma flat_hd z : flat (hex_and_decimal z) = true.
  Proof. unfold hex_and_decimal. apply flat_lit; [reflexivity|]. apply flat_lit; [apply flat_hex|]. apply flat_lit; [reflexivity|]. apply flat_lit; [apply flat_decimal|reflexivity]. Qed.
  Lemma flat_bool b : flat (py_bool b) = true. Proof. now destruct b. Qed.
  Lemma flat_none o : flat_opt o = true -> flat (or_none o) = true. Proof. now destruct o. Qed.
  Lemma flat_int o : flat (int_or_none o) = true. Proof. destruct o; [apply flat_decimal|reflexivity]. Qed.
  Lemma flat_show n : flat (show n) = true. Proof. assert (H := SH n). unfold name_ok in H. now apply andb_prop in H. Qed.
  Lemma flat_format v u : flat_value v = true -> flat u = true -> flat (format_val show v u) = true.
  Proof. intros A B. destruct v; try exact A. apply flat_lit; [apply flat_show|]. destruct u; [reflexivity|]. now apply flat_lit. Qed.
  Lemma flat_comment_lines ind c : flat ind = true -> flat_comments c = true -> Forall (fun x => flat x = true) (comment_lines ind c).
  Proof.
    intros I C. unfold flat_comments in C. destruct c as [l|]; [|constructor]. cbn [texts_of comment_lines] in *. apply Forall_forall. intros x H. apply in_map_iff in H. destruct H as (p & <- & H).
    rewrite forallb_forall in C. specialize (C _ H). apply andb_prop in C. destruct C as [C1 C2]. apply flat_lit; [exact I|]. apply flat_lit; [reflexivity|]. apply flat_lit; [exact C1|]. now apply flat_lit.
  Qed.
  Ltac fl :=
    repeat match goal with
    | H : ?x = true |- ?x = true => exact H
    | |- flat (txt _) = true => reflexivity
    | |- flat (decimal _) = true => apply flat_decimal
    | |- flat (hex_and_decimal _) = true => apply flat_hd
    | |- flat (py_bool _) = true => apply flat_bool
    | |- flat (int_or_none _) = true => apply flat_int
    | |- flat (show _) = true => apply flat_show
    | |- flat (_ ++ _) = true => apply flat_lit
    end.
  Lemma flat_name t : name_ok t = true -> flat t = true. Proof. intros H. now apply andb_prop in H. Qed.

  Lemma flat_head a c i : flat_info i = true -> Forall (fun x => flat x = true) (head_body a c i).
  Proof.
    intros F. unfold flat_info in F. repeat (apply andb_prop in F; destruct F as [F ?]). unfold head_body. repeat (apply Forall_app; split).
    - now apply flat_comment_lines.
    - destruct (am_bus i) as [[|]|]; repeat constructor. cbn [flat_opt] in *. fl.
    - destruct (am_senders i) as [|s l]; repeat constructor. apply flat_lit; [reflexivity|]. now apply flat_comma, flat_sorted.
    - unfold frame_part. destruct (am_header i); [|destruct c]; repeat constructor; fl.
    - destruct (am_cycle i); repeat constructor; fl.
    - unfold spec_part. destruct a; [|constructor]. repeat (apply Forall_app; split).
      + repeat constructor. fl.
      + destruct (sp_e2e (am_spec i)) as [e|]; repeat constructor; [| |fl]; (apply flat_lit; [reflexivity|]).
        * now apply flat_none.
        * apply flat_lit; [|reflexivity]. apply flat_comma. rewrite forallb_forall. intros x I. apply in_map_iff in I. destruct I as (z & <- & _). apply flat_decimal.
      + repeat constructor. fl.
      + destruct (sp_secoc (am_spec i)) as [e|]; [|constructor]. match goal with H : (_ && _)%bool = true |- _ => apply andb_prop in H; destruct H end. repeat constructor; fl; now apply flat_none.
  Qed.
  Definition distinct (i : ainfo) : Prop := NoDup (map (fun s => s_name (a_sig s)) (am_signals i)).
  Lemma distinct_unique i : distinct i -> LayoutSpec.names_unique (map a_sig (am_signals i)).
  Proof. intros D. unfold LayoutSpec.names_unique. now rewrite map_map. Qed.
  Lemma flat_selector i g sel : distinct i -> selector_lines [] (am_signals i) g = Ok sel -> forallb flat_signal (am_signals i) = true -> Forall (fun x => flat x = true) sel.
  Proof.
    intros D E F. unfold selector_lines in E. destruct (s_mux_sig g) as [n|]; [|injection E as <-; constructor]. apply bind_ok in E. destruct E as (x & G & E). assert (OI : forall a b : list chars, Ok a = Ok b -> a = b) by (intros a b X; now injection X). apply OI in E. subst sel.
    apply TreeProofs.get_signal_inv in G; [|now apply distinct_unique]. destruct G as [I <-]. apply in_map_iff in I. destruct I as (s & <- & I).
    rewrite forallb_forall in F. specialize (F _ I). unfold flat_signal in F. repeat (apply andb_prop in F; destruct F as [F ?]).
    cbn [List.app]. constructor; [|constructor; [|constructor]]; (apply flat_lit; [reflexivity|]); [exact F|].
    apply flat_comma. rewrite forallb_forall. intros t T. destruct (s_mux_ids g) as [ids|]; [|destruct T]. apply in_map_iff in T. destruct T as (z & <- & _). unfold selector_value.
    destruct (conv_choices (s_conv (a_sig s))) as [ch|]; [|apply flat_decimal]. destruct (zget ch z) as [c|] eqn:Z; [|apply flat_decimal].
    match goal with H : forallb (fun p => flat (TreeDraw.choice_text (snd p))) ch = true |- _ => rewrite forallb_forall in H; apply (H (z, c)) end.
    now apply (get_in _ DictLemmas.zspec).
  Qed.
  Lemma flat_body i s sel : distinct i -> forallb flat_signal (am_signals i) = true -> In s (am_signals i) -> selector_lines [] (am_signals i) (a_sig s) = Ok sel -> Forall (fun x => flat x = true) (body show (am_signals i) s sel).
  Proof.
    intros D F I E. assert (FS := flat_selector _ _ _ D E F). rewrite forallb_forall in F. specialize (F _ I). unfold flat_signal in F. repeat (apply andb_prop in F; destruct F as [F ?]).
    assert (U : flat (match a_unit s with Some u => u | None => [] end) = true) by (destruct (a_unit s); [assumption|reflexivity]).
    unfold body. repeat (apply Forall_app; split).
    - now apply flat_comment_lines.
    - destruct (a_receivers s); repeat constructor. apply flat_lit; [reflexivity|]. now apply flat_comma, flat_sorted.
    - repeat constructor. apply flat_lit; [reflexivity|]. unfold internal_type. destruct (conv_is_float _); [reflexivity|]. destruct (_ && _); reflexivity.
    - exact FS.
    - repeat constructor; fl. now destruct (s_big (a_sig s)).
    - destruct (match a_unit s with Some u => u | None => [] end); repeat constructor. fl.
    - destruct (a_initial s); repeat constructor. apply flat_lit; [reflexivity|]. now apply flat_format.
    - destruct (a_invalid s); repeat constructor. apply flat_lit; [reflexivity|]. now apply flat_format.
    - repeat constructor. fl.
    - destruct (s_min (a_sig s)); repeat constructor. apply flat_lit; [reflexivity|]. now apply flat_format.
    - destruct (s_max (a_sig s)); repeat constructor. apply flat_lit; [reflexivity|]. now apply flat_format.
    - unfold scaling_lines. destruct (_ || _); repeat constructor; cbn [List.app]; (apply flat_lit; [reflexivity|]); now apply flat_format.
    - destruct (a_choices s) as [[|c l]|]; try constructor; [reflexivity|]. fold (named_block show). 
      match goal with H : forallb (fun c => flat (nv_name c) && flat_comments (nv_comments c)) _ = true |- _ => rename H into C end. apply Forall_forall. intros x X. apply in_flat_map in X. destruct X as (d & X0 & X).
      rewrite forallb_forall in C. specialize (C _ X0). apply andb_prop in C. destruct C as [C1 C2]. destruct X as [<-|X].
      + cbn [List.app]. apply flat_lit; [reflexivity|]. apply flat_lit; [apply flat_show|]. now apply flat_lit.
      + revert x X. now apply Forall_forall, flat_comment_lines.
  Qed.
  Lemma flat_split l : Forall (fun x => flat x = true) (split_on newline l).
  Proof.
    induction l as [|c l IH]; [now repeat constructor|]. cbn [split_on]. destruct (Ascii.eqb c newline) eqn:E; [now constructor|].
    destruct (split_on newline l) as [|w ws]; [repeat constructor; unfold flat; cbn [forallb]; now rewrite E|]. inversion IH; subst. constructor; [|assumption]. unfold flat in *. cbn [forallb]. now rewrite E.
  Qed.
  Lemma split_line l r : flat l = true -> split_on newline (l ++ newline :: r) = l :: split_on newline r.
  Proof.
    induction l as [|c l IH]; intros F; [reflexivity|]. unfold flat in F. cbn [forallb] in F. apply andb_prop in F. destruct F as [F0 F]. apply negb_true_iff in F0.
    cbn [List.app split_on]. rewrite F0, (IH F). reflexivity.
  Qed.
  Lemma split_written ls : Forall (fun x => flat x = true) ls -> lines_of (written ls) = ls ++ [[]].
  Proof.
    unfold lines_of. induction 1 as [|l ls H F IH]; [reflexivity|]. unfold written in *. cbn [flat_map]. rewrite <- app_assoc. cbn [List.app]. rewrite split_line by assumption. now rewrite IH.
  Qed.

  (** ** The block of a message *)
  Notation all_flat := (Forall (fun x : chars => flat x = true)).
  Notation all_inner := (Forall (fun x : chars => inner x = true)).
  Definition tree_shape (t : list chars) : Prop := exists l, t = txt "  Signal tree:" :: [] :: map (fun s => txt "    " ++ s) l ++ [[]] /\ all_flat l.
  Lemma tree_ok i t : tree_part [] i = Ok t -> (am_signals i = [] /\ t = []) \/ (am_signals i <> [] /\ tree_shape t).
  Proof.
    unfold tree_part. destruct (am_signals i) as [|s r]; intros H.
    - left. injection H as <-. now split.
    - right. split; [discriminate|]. apply bind_ok in H. destruct H as (st & _ & H). assert (OI : forall a b : list chars, Ok a = Ok b -> a = b) by (intros a b X; now injection X). apply OI in H. subst t.
      exists (split_on newline st). split; [reflexivity|apply flat_split].
  Qed.
  Lemma tree_flat t : tree_shape t -> all_flat t.
  Proof. intros (l & -> & F). constructor; [reflexivity|]. constructor; [reflexivity|]. apply Forall_app. split; [|now repeat constructor]. apply Forall_map. eapply Forall_impl; [|exact F]. intros x H. now apply flat_lit. Qed.
  Lemma tree_inner t : tree_shape t -> all_inner t.
  Proof. intros (l & -> & F). constructor; [reflexivity|]. constructor; [reflexivity|]. apply Forall_app. split; [|now repeat constructor]. apply Forall_map. eapply Forall_impl; [|exact F]. reflexivity. Qed.
  Lemma head_inner a c i : all_inner (head_body a c i).
  Proof. now apply head_forall. Qed.
  Lemma signals_ok i s : signals_part show [] i = Ok s -> exists parts, Forall2 (fun s p => signal_lines show [] (am_signals i) s = Ok p) (am_signals i) parts /\
    s = match am_signals i with [] => [] | _ => [txt "  Signal details:"] end ++ List.concat parts.
  Proof.
    unfold signals_part. intros H. apply bind_ok in H. destruct H as (parts & E & H). exists parts. split; [now apply mapM_ok|].
    assert (OI : forall a b : list chars, Ok a = Ok b -> a = b) by (intros a b X; now injection X). now apply OI in H.
  Qed.
  Lemma parts_inner i sigs parts : Forall2 (fun s p => signal_lines show [] (am_signals i) s = Ok p) sigs parts -> all_inner (List.concat parts).
  Proof.
    induction 1 as [|s p sigs parts H F IH]; [constructor|]. cbn [List.concat]. apply Forall_app. split; [|exact IH]. apply signal_lines_eq in H. destruct H as (sel & E & ->).
    constructor; [reflexivity|]. eapply Forall_impl; [|apply (body_six show SH); eapply selector_shape; exact E]. intros x H. unfold starts in H. destruct (after (txt "      ") x) as [r|] eqn:A; [|discriminate]. apply after_some in A. now subst.
  Qed.
  Lemma parts_flat i sigs parts : distinct i -> forallb flat_signal (am_signals i) = true -> (forall s, In s sigs -> In s (am_signals i)) -> Forall2 (fun s p => signal_lines show [] (am_signals i) s = Ok p) sigs parts -> all_flat (List.concat parts).
  Proof.
    intros D FS I F. induction F as [|s p sigs parts H F IH]; [constructor|]. cbn [List.concat]. apply Forall_app. split; [|apply IH; intros; apply I; now right]. apply signal_lines_eq in H. destruct H as (sel & E & ->).
    assert (Is : In s (am_signals i)) by (apply I; now left). constructor; [|now apply flat_body]. apply flat_lit; [reflexivity|]. apply flat_lit; [|reflexivity].
    rewrite forallb_forall in FS. specialize (FS _ Is). unfold flat_signal in FS. repeat (apply andb_prop in FS; destruct FS as [FS ?]). exact FS.
  Qed.
  Lemma signals_inner i s : signals_part show [] i = Ok s -> all_inner s.
  Proof. intros H. apply signals_ok in H. destruct H as (parts & F & ->). apply Forall_app. split; [destruct (am_signals i); repeat constructor|]. eapply parts_inner, F. Qed.
  Lemma signals_flat i s : distinct i -> flat_info i = true -> signals_part show [] i = Ok s -> all_flat s.
  Proof.
    intros D FI H. apply signals_ok in H. destruct H as (parts & F & ->). apply Forall_app. split; [destruct (am_signals i); repeat constructor|]. eapply parts_flat; [exact D| |intros s Hs; exact Hs|exact F].
    unfold flat_info in FI. now apply andb_prop in FI.
  Qed.
  Lemma names_of i : distinct i -> NoDup (map sig_name (am_signals i)).
  Proof.
    unfold distinct. intros D. rewrite <- (map_map (fun s => s_name (a_sig s)) txt). apply FinFun.Injective_map_NoDup; [|exact D].
    intros a b E. rewrite <- (string_of_list_ascii_of_string a), <- (string_of_list_ascii_of_string b). unfold txt in E. now rewrite E.
  Qed.
  Lemma names_ok i : flat_info i = true -> forallb (fun s => name_ok (sig_name s)) (am_signals i) = true.
  Proof.
    unfold flat_info. intros F. apply andb_prop in F. destruct F as [_ F]. rewrite forallb_forall in *. intros s I. specialize (F s I). unfold flat_signal in F.
    do 7 (apply andb_prop in F; destruct F as [F ?]). exact F.
  Qed.
  Definition stops (x : chars) : bool := negb (line_is (txt "  Signal tree:") x) && negb (line_is (txt "  Potentially contained messages:") x).
  (** The fields of the message are found whatever follows, unless it is neither a tree nor a list of contained messages. *)
  Lemma front_ok a c i r : (tail_ok r \/ exists x r', r = x :: r' /\ stops x = false) -> exists tl, tail_ok tl /\ front (head_body a c i ++ r) = head_body a c i ++ tl.
  Proof.
    intros H. unfold front. fold stops. rewrite while_all by now apply head_forall.
    destruct H as [[->| ->]|(x & r' & -> & S)]; [exists []|exists [[]]|exists []]; (split; [first [now left|now right]|]); try reflexivity. cbn [while]. now rewrite S.
  Qed.
  (** A message that is no container *)
  Lemma simple_block sp au i ls : print_simple show [] sp au i = Ok ls -> flat_info i = true -> distinct i ->
    exists bb, ls = (txt (m_name (am_core i)) ++ txt ":") :: bb /\ all_inner bb /\ all_flat ls /\ forall tl, tail_ok tl -> fronted show (sp && au) false i (bb ++ tl) /\ detailed show i (bb ++ tl).
  Proof.
    unfold print_simple. intros H FI D. apply bind_ok in H. destruct H as (t & ET & H). apply bind_ok in H. destruct H as (s & ES & H).
    assert (OI : forall a b : list chars, Ok a = Ok b -> a = b) by (intros a b X; now injection X). apply OI in H. subst ls. rewrite head_eq. cbn [List.app].
    exists (head_body (sp && au) false i ++ t ++ s). split; [reflexivity|]. apply tree_ok in ET.
    assert (TI : all_inner t) by (destruct ET as [[_ ->]|[_ T]]; [constructor|now apply tree_inner]).
    assert (TF : all_flat t) by (destruct ET as [[_ ->]|[_ T]]; [constructor|now apply tree_flat]).
    assert (SI := signals_inner _ _ ES). assert (SF := signals_flat _ _ D FI ES).
    split; [|split].
    - apply Forall_app. split; [apply head_inner|]. apply Forall_app. now split.
    - constructor; [|apply Forall_app; split; [now apply flat_head|apply Forall_app; now split]]. apply flat_lit; [|reflexivity]. unfold flat_info in FI. do 6 (apply andb_prop in FI; destruct FI as [FI ?]). now apply flat_name.
    - intros tl T. apply signals_ok in ES. destruct ES as (parts & F & ->). split.
      + destruct (front_ok (sp && au) false i (t ++ (match am_signals i with [] => [] | _ => [txt "  Signal details:"] end ++ List.concat parts) ++ tl)) as (tl' & T' & E').
        { destruct ET as [[N ->]|[_ (l & -> & _)]].
          - left. rewrite N in *. inversion F; subst. exact T.
          - right. do 2 eexists. split; [reflexivity|]. reflexivity. }
        eapply frontedI; [|exact T']. rewrite <- E'. f_equal. now rewrite <- !app_assoc.
      + assert (HD : Forall (fun x => line_is (txt "  Signal details:") x = false) (head_body (sp && au) false i ++ t)).
        { apply Forall_app. split; [now apply head_forall|]. destruct ET as [[_ ->]|[_ (l & -> & _)]]; [constructor|]. constructor; [reflexivity|]. constructor; [reflexivity|].
          apply Forall_app. split; [|repeat constructor]. apply Forall_map. apply Forall_forall. reflexivity. }
        unfold detailed, section, details. rewrite <- !app_assoc. rewrite (app_assoc (head_body (sp && au) false i) t). rewrite (below_skip _ (head_body (sp && au) false i ++ t)) by exact HD.
        destruct (parts_described show SH i (am_signals i) parts tl F (names_ok i FI) (names_of i D) T) as (P1 & _ & P2).
        destruct (am_signals i) as [|s0 sr] eqn:S.
        * inversion F; subst. cbn [List.app List.concat]. split; [destruct T as [->| ->]; reflexivity|intros s []].
        * cbn [List.app]. rewrite below_here. split; [exact P1|exact P2].
  Qed.

  (** ** Contained messages are printed four blanks to the right. *)
  Definition shift (ind x : chars) : chars := match x with [] => [] | _ => ind ++ x end.
  Lemma shift_comments ind q c : comment_lines (ind ++ q) c = map (shift ind) (comment_lines q c).
  Proof. destruct c as [l|]; [|reflexivity]. cbn [comment_lines]. rewrite map_map. apply map_ext. intros p. rewrite <- app_assoc. unfold shift. destruct q; reflexivity. Qed.
  Lemma shift_head ind sp au c i : head_part show ind sp au c i = map (shift ind) (head_part show [] sp au c i).
  Proof.
    unfold head_part. rewrite !map_app. repeat apply (f_equal2 (@List.app chars)).
    - cbn [map List.app]. f_equal. now destruct (txt (m_name (am_core i))).
    - now rewrite shift_comments.
    - now destruct (am_bus i) as [[|]|].
    - now destruct (am_senders i).
    - now destruct (am_header i), c.
    - now destruct (am_cycle i).
    - destruct (sp && au); [|reflexivity]. unfold specific_lines. now destruct (sp_e2e (am_spec i)), (sp_secoc (am_spec i)).
  Qed.
  Definition on_lines (f : chars -> chars) (r : result (list chars)) : result (list chars) := match r with Ok l => Ok (map f l) | Err e => Err e end.
  Lemma shift_tree ind i : tree_part ind i = on_lines (shift ind) (tree_part [] i).
  Proof.
    unfold tree_part. destruct (am_signals i); [reflexivity|]. destruct (TreeDraw.signal_tree_string (am_core i) 1000000) as [st|e]; [|reflexivity]. cbn [bind on_lines map]. f_equal. f_equal. f_equal.
    rewrite map_app, map_map. reflexivity.
  Qed.
  Lemma shift_named ind o : named_lines show ind o = map (shift ind) (named_lines show [] o).
  Proof.
    destruct o as [[|c l]|]; try reflexivity. cbn [named_lines map]. f_equal. induction (c :: l) as [|d r IH]; [reflexivity|]. cbn [flat_map]. rewrite map_app. apply (f_equal2 (@List.app chars)); [|exact IH].
    cbn [map]. f_equal. now rewrite shift_comments.
  Qed.
  Lemma shift_selector ind sigs g : selector_lines ind sigs g = on_lines (shift ind) (selector_lines [] sigs g).
  Proof. unfold selector_lines. destruct (s_mux_sig g); [|reflexivity]. destruct (get_signal _ _); reflexivity. Qed.
  Lemma shift_signal ind sigs s : signal_lines show ind sigs s = on_lines (shift ind) (signal_lines show [] sigs s).
  Proof.
    unfold signal_lines. rewrite shift_selector. destruct (selector_lines [] sigs (a_sig s)) as [sel|e]; [|reflexivity]. cbn [on_lines bind]. f_equal.
    cbn [map]. apply f_equal2; [reflexivity|]. rewrite !map_app. repeat apply (f_equal2 (@List.app chars)); try reflexivity.
    - now rewrite shift_comments.
    - now destruct (a_receivers s).
    - now destruct (match a_unit s with Some u => u | None => [] end).
    - now destruct (a_initial s).
    - now destruct (a_invalid s).
    - now destruct (s_min (a_sig s)).
    - now destruct (s_max (a_sig s)).
    - unfold scaling_lines. now destruct (_ || _).
    - apply shift_named.
  Qed.
  Lemma shift_signals ind i : signals_part show ind i = on_lines (shift ind) (signals_part show [] i).
  Proof.
    unfold signals_part. assert (X : forall l, mapM (signal_lines show ind (am_signals i)) l = match mapM (signal_lines show [] (am_signals i)) l with Ok p => Ok (map (map (shift ind)) p) | Err e => Err e end).
    { induction l as [|s l IH]; [reflexivity|]. cbn [mapM]. rewrite shift_signal. destruct (signal_lines show [] (am_signals i) s); [|reflexivity]. cbn [on_lines bind]. rewrite IH. destruct (mapM (signal_lines show [] (am_signals i)) l); reflexivity. }
    rewrite X. destruct (mapM _ _) as [p|e]; [|reflexivity]. cbn [bind on_lines]. f_equal. rewrite map_app, concat_map. f_equal. now destruct (am_signals i).
  Qed.
  Lemma shift_simple ind sp au i : print_simple show ind sp au i = on_lines (shift ind) (print_simple show [] sp au i).
  Proof.
    unfold print_simple. rewrite shift_tree, shift_signals, shift_head. destruct (tree_part [] i); [|reflexivity]. cbn [bind on_lines]. destruct (signals_part show [] i); [|reflexivity]. cbn [bind on_lines]. now rewrite !map_app.
  Qed.
  (** Reading: the lines without these blanks *)
  Definition unshift (x : chars) : chars := match after (txt "    ") x with Some r => r | None => x end.
  Lemma unshift_shift x : unshift (shift (txt "    ") x) = x.
  Proof. destruct x as [|c x]; [reflexivity|]. unfold unshift, shift. now rewrite after_app. Qed.

  (** ** Finding a block *)
  Lemma inner_not_head n x : name_ok n = true -> inner x = true -> line_is (n ++ txt ":") x = false.
  Proof.
    intros N I. destruct (line_is _ _) eqn:L; [|reflexivity]. exfalso. apply line_is_iff in L. subst x. unfold name_ok in N. apply andb_prop in N. destruct N as [_ N]. destruct n as [|c n]; [discriminate|].
    cbn in I. rewrite I in N. discriminate.
  Qed.
  Lemma block_found n bb bs tl : name_ok n = true -> tail_ok tl -> In ((n ++ txt ":") :: bb) bs ->
    Forall (fun b => exists x r, b = x :: r /\ inner x = false /\ all_inner r /\ (x = n ++ txt ":" -> r = bb)) bs ->
    exists tl', tail_ok tl' /\ block n (List.concat bs ++ tl) = bb ++ tl'.
  Proof.
    intros N T I F. unfold block. induction F as [|b bs (x & r & -> & X & R & E) F IH]; [destruct I|]. cbn [List.concat]. rewrite <- app_assoc, <- app_comm_cons. cbn [below].
    destruct (line_is (n ++ txt ":") x) eqn:L.
    - apply line_is_iff in L. specialize (E L). subst r. rewrite while_all by exact R. destruct F as [|b' bs' (x' & r' & -> & X' & _) F'].
      + exists tl. split; [exact T|]. cbn [List.concat List.app]. destruct T as [->| ->]; reflexivity.
      + exists []. split; [now left|]. cbn [List.concat]. rewrite <- app_assoc, <- app_comm_cons. cbn [while]. now rewrite X'.
    - destruct I as [I|I]; [exfalso; assert (I0 : line_is (n ++ txt ":") x = true) by (apply line_is_iff; exact (f_equal (hd []) I)); rewrite I0 in L; discriminate|].
      rewrite below_skip; [now apply IH|]. eapply Forall_impl; [|exact R]. intros y Y. now apply inner_not_head.
  Qed.
  Lemma header_outer n : name_ok n = true -> inner (n ++ txt ":") = false.
  Proof. intros N. unfold name_ok in N. apply andb_prop in N. destruct N as [_ N]. destruct n as [|c n]; [discriminate|]. cbn. now apply negb_true_iff. Qed.
  Lemma header_inj a b : a ++ txt ":" = b ++ txt ":" -> a = b.
  Proof. intros E. now apply app_inj_tail in E. Qed.

  (** ** What is read of a message, and of a contained message *)
  Definition info_name (i : ainfo) : chars := txt (m_name (am_core i)).
  Definition contained_lines (b : list chars) : list chars := map unshift (below (txt "  Potentially contained message details:") b).
  Definition offered (b : list chars) : list chars := while (fun x => match x with [] => false | _ => true end) (List.tl (below (txt "  Potentially contained messages:") b)).
  Definition offers (c : ainfo) (x : chars) : Prop := exists z h, am_header c = Some z /\ (0 <= z -> hex_number z 1 h) /\ x = txt "    " ++ info_name c ++ txt " (0x" ++ h ++ txt ")".
  Definition shown (specifics : bool) (m : lmessage) (b : list chars) : Prop :=
    fronted show (specifics && lm_autosar m) (match lm_contained m with Some _ => true | None => false end) (lm_info m) b /\
    (lm_contained m = None -> detailed show (lm_info m) b) /\
    forall cs, lm_contained m = Some cs -> am_signals (lm_info m) = [] ->
      Forall2 offers cs (offered b) /\
      (NoDup (map info_name cs) -> forall c, In c cs ->
         fronted show (specifics && lm_autosar m) false c (block (info_name c) (contained_lines b)) /\ detailed show c (block (info_name c) (contained_lines b))).
  Definition distinct_all (m : lmessage) : Prop := distinct (lm_info m) /\ forall cs c, lm_contained m = Some cs -> In c cs -> distinct c.

  Lemma info_name_ok i : flat_info i = true -> name_ok (info_name i) = true.
  Proof. intros FI. unfold flat_info in FI. do 6 (apply andb_prop in FI; destruct FI as [FI ?]). exact FI. Qed.
  Lemma inner_shift x : inner (shift (txt "    ") x) = true. Proof. now destruct x. Qed.
  Lemma flat_shift x : flat x = true -> flat (shift (txt "    ") x) = true. Proof. intros H. destruct x; [reflexivity|]. now apply flat_lit. Qed.

  Lemma message_block specifics m ls : print_message show specifics m = Ok ls -> flat_message m = true -> distinct_all m ->
    exists bb, ls = (lm_name m ++ txt ":") :: bb /\ all_inner bb /\ all_flat ls /\ forall tl, tail_ok tl -> shown specifics m (bb ++ tl).
  Proof.
    intros H FM [D DC]. unfold flat_message in FM. apply andb_prop in FM. destruct FM as [FI FC]. destruct (lm_contained m) as [cs|] eqn:C.
    2: { assert (P : print_message show specifics m = print_simple show [] specifics (lm_autosar m) (lm_info m)).
         { unfold print_message, print_simple. rewrite C. cbn [contained_part]. destruct (tree_part _ _); [|reflexivity]. cbn [bind]. destruct (signals_part _ _ _); reflexivity. }
         rewrite P in H. destruct (simple_block _ _ _ _ H FI D) as (bb & E & I & F & R). exists bb. split; [exact E|]. split; [exact I|]. split; [exact F|]. intros tl T. destruct (R tl T) as [R1 R2].
         unfold shown. rewrite C. split; [exact R1|]. split; [intros _; exact R2|discriminate]. }
    unfold print_message in H. rewrite C in H. apply bind_ok in H. destruct H as (t & ET & H). apply bind_ok in H. destruct H as (c & EC & H). apply bind_ok in H. destruct H as (s & ES & H).
    assert (OI : forall a b : list chars, Ok a = Ok b -> a = b) by (intros a b X; now injection X). apply OI in H. subst ls. rewrite head_eq. cbn [List.app].
    exists (head_body (specifics && lm_autosar m) true (lm_info m) ++ t ++ c ++ s). split; [reflexivity|]. apply tree_ok in ET.
    assert (TI : all_inner t) by (destruct ET as [[_ ->]|[_ T]]; [constructor|now apply tree_inner]).
    assert (TF : all_flat t) by (destruct ET as [[_ ->]|[_ T]]; [constructor|now apply tree_flat]).
    assert (SI := signals_inner _ _ ES). assert (SF := signals_flat _ _ D FI ES).
    unfold contained_part in EC. apply bind_ok in EC. destruct EC as (hs & EH & EC). apply bind_ok in EC. destruct EC as (ds & ED & EC). apply OI in EC. cbn [List.app] in EC. subst c.
    apply mapM_ok in EH. apply mapM_ok in ED.
    assert (HO : Forall2 offers cs hs).
    { eapply Forall2_weaken; [|exact EH]. intros x y Hxy. cbn beta in Hxy. destruct (am_header x) as [z|] eqn:Hz; [|discriminate]. assert (OC : forall a b : chars, Ok a = Ok b -> a = b) by (intros a b X; now injection X). apply OC in Hxy.
      exists z, (hex_text 1 z). split; [exact Hz|]. split; [intros P; now apply Prop_DecodeCmd.hex_text_number|now rewrite <- Hxy]. }
    assert (HS : Forall (fun x => exists r, x = txt "    " ++ r /\ flat r = true) hs).
    { rewrite forallb_forall in FC. clear - EH FC. induction EH as [|x y l l' Hx F IH]; [constructor|]. constructor; [|apply IH; intros; apply FC; now right].
      destruct (am_header x) as [z|]; [|discriminate]. assert (OC : forall a b : chars, Ok a = Ok b -> a = b) by (intros a b X; now injection X). apply OC in Hx. subst y. cbn [List.app]. eexists. split; [reflexivity|].
      apply flat_lit; [apply flat_name, info_name_ok, FC; now left|]. apply flat_lit; [reflexivity|]. apply flat_lit; [apply flat_hex|reflexivity]. }
    (* the blocks of the contained messages, without indentation *)
    assert (DS : exists bs, Forall2 (fun c b => print_simple show [] specifics (lm_autosar m) c = Ok b) cs bs /\ ds = map (map (shift (txt "    "))) bs).
    { clear - ED. induction ED as [|x y l l' Hx F (bs & B1 & B2)]; [exists []; split; [constructor|reflexivity]|]. rewrite shift_simple in Hx. destruct (print_simple show [] specifics (lm_autosar m) x) as [b|e] eqn:P; [|discriminate].
      cbn [on_lines] in Hx. injection Hx as <-. exists (b :: bs). split; [now constructor|]. cbn [map]. now rewrite B2. }
    destruct DS as (bs & EB & ->). rewrite <- concat_map.
    assert (BS : Forall2 (fun c b => exists bb, b = (info_name c ++ txt ":") :: bb /\ all_inner bb /\ all_flat b /\ forall tl, tail_ok tl -> fronted show (specifics && lm_autosar m) false c (bb ++ tl) /\ detailed show c (bb ++ tl)) cs bs).
    { rewrite forallb_forall in FC. assert (DC' : forall c, In c cs -> distinct c) by (intros c Ic; now apply (DC cs c)). clear - EB FC DC' SH. induction EB as [|x y l l' Hx F IH]; [constructor|].
      constructor; [|apply IH; intros; [apply FC|apply DC']; now right]. apply (simple_block _ _ _ _ Hx); [apply FC|apply DC']; now left. }
    assert (BF : all_flat (List.concat bs)).
    { clear - BS. induction BS as [|c b cs bs (bb & _ & _ & F & _) _ IH]; [constructor|]. cbn [List.concat]. apply Forall_app. now split. }
    assert (SFI : all_flat (map (shift (txt "    ")) (List.concat bs))) by (apply Forall_map; eapply Forall_impl; [|exact BF]; intros x; apply flat_shift).
    assert (SII : all_inner (map (shift (txt "    ")) (List.concat bs))) by (apply Forall_map, Forall_forall; intros x _; apply inner_shift).
    assert (HF : all_flat hs) by (eapply Forall_impl; [|exact HS]; intros x (r & -> & Hr); now apply flat_lit).
    assert (HI : all_inner hs) by (eapply Forall_impl; [|exact HS]; intros x (r & -> & Hr); reflexivity).
    split; [|split].
    - apply Forall_app; split; [apply head_inner|]. apply Forall_app; split; [exact TI|]. apply Forall_app; split; [|exact SI]. constructor; [reflexivity|]. constructor; [reflexivity|]. apply Forall_app. split; [exact HI|]. constructor; [reflexivity|]. now constructor.
    - constructor; [apply flat_lit; [now apply flat_name, info_name_ok|reflexivity]|]. apply Forall_app; split; [now apply flat_head|]. apply Forall_app; split; [exact TF|]. apply Forall_app; split; [|exact SF]. constructor; [reflexivity|]. constructor; [reflexivity|].
      apply Forall_app. split; [exact HF|]. constructor; [reflexivity|]. now constructor.
    - intros tl T. unfold shown. rewrite C. split; [|split; [discriminate|]].
      + destruct (front_ok (specifics && lm_autosar m) true (lm_info m) (t ++ ((txt "  Potentially contained messages:" :: [] :: hs ++ [] :: txt "  Potentially contained message details:" :: map (shift (txt "    ")) (List.concat bs)) ++ s) ++ tl)) as (tl' & T' & E').
        { right. destruct ET as [[_ ->]|[_ (l & -> & _)]]; do 2 eexists; (split; [reflexivity|reflexivity]). }
        eapply frontedI; [|exact T']. rewrite <- E'. f_equal. now rewrite <- !app_assoc.
      + intros cs' CS NS. injection CS as <-. destruct ET as [[_ ->]|[NE _]]; [|contradiction]. apply signals_ok in ES. destruct ES as (parts & FP & ->). rewrite NS in *. inversion FP; subst. cbn [List.concat List.app].
        match goal with |- Forall2 offers cs (offered ?b) /\ _ => assert (BB : b = head_body (specifics && lm_autosar m) true (lm_info m) ++ txt "  Potentially contained messages:" :: [] :: hs ++ [] :: txt "  Potentially contained message details:" :: map (shift (txt "    ")) (List.concat bs) ++ tl) end.
        { rewrite ?app_nil_r, <- !app_assoc. cbn [List.app]. rewrite ?app_nil_r, <- !app_assoc. reflexivity. }
        rewrite BB. clear BB. split.
        * assert (X : offered (head_body (specifics && lm_autosar m) true (lm_info m) ++ txt "  Potentially contained messages:" :: [] :: hs ++ [] :: txt "  Potentially contained message details:" :: map (shift (txt "    ")) (List.concat bs) ++ tl) = hs).
          { unfold offered. rewrite below_skip by now apply head_forall. rewrite below_here. cbn [List.tl]. rewrite while_all; [cbn [List.app while]; now rewrite app_nil_r|].
            eapply Forall_impl; [|exact HS]. intros x (r & -> & _). reflexivity. }
          rewrite X. exact HO.
        * intros ND c Ic. assert (X : contained_lines (head_body (specifics && lm_autosar m) true (lm_info m) ++ txt "  Potentially contained messages:" :: [] :: hs ++ [] :: txt "  Potentially contained message details:" :: map (shift (txt "    ")) (List.concat bs) ++ tl) = List.concat bs ++ tl).
          { unfold contained_lines. rewrite below_skip by now apply head_forall. 
            change (txt "  Potentially contained messages:" :: [] :: hs ++ [] :: txt "  Potentially contained message details:" :: map (shift (txt "    ")) (List.concat bs) ++ tl)
              with ([txt "  Potentially contained messages:"; []] ++ hs ++ [] :: txt "  Potentially contained message details:" :: map (shift (txt "    ")) (List.concat bs) ++ tl).
            rewrite below_skip by repeat constructor. rewrite below_skip by (eapply Forall_impl; [|exact HS]; intros x (r & -> & _); reflexivity).
            change ([] :: txt "  Potentially contained message details:" :: map (shift (txt "    ")) (List.concat bs) ++ tl) with ([[]] ++ txt "  Potentially contained message details:" :: map (shift (txt "    ")) (List.concat bs) ++ tl).
            rewrite below_skip by repeat constructor. rewrite below_here. rewrite map_app, map_map. rewrite (map_ext _ (fun x => x)) by apply unshift_shift. rewrite map_id. f_equal. destruct T as [->| ->]; reflexivity. }
          rewrite X. assert (Y : exists bb, In ((info_name c ++ txt ":") :: bb) bs /\ Forall (fun b => exists x r, b = x :: r /\ inner x = false /\ all_inner r /\ (x = info_name c ++ txt ":" -> r = bb)) bs /\
            forall tl, tail_ok tl -> fronted show (specifics && lm_autosar m) false c (bb ++ tl) /\ detailed show c (bb ++ tl)).
          { rewrite forallb_forall in FC. clear - BS ND Ic FC. induction BS as [|d b cs bs (bb & -> & BI & BF & BR) BS IH]; [destruct Ic|]. cbn [map] in ND. inversion ND as [|? ? N0 N1]; subst.
            assert (Nd : name_ok (info_name d) = true) by (apply info_name_ok, FC; now left).
            assert (OT : forall n, Forall2 (fun c b => exists bb, b = (info_name c ++ txt ":") :: bb /\ all_inner bb /\ all_flat b /\ forall tl, tail_ok tl -> fronted show (specifics && lm_autosar m) false c (bb ++ tl) /\ detailed show c (bb ++ tl)) cs bs ->
                (forall x, In x cs -> flat_info x = true) -> ~ In n (map info_name cs) -> forall b0, Forall (fun b => exists x r, b = x :: r /\ inner x = false /\ all_inner r /\ (x = n ++ txt ":" -> r = b0)) bs).
            { clear. intros n F FC N b0. induction F as [|d b cs bs (bb & -> & BI & _) F IH]; [constructor|]. constructor; [|apply IH; [intros; apply FC; now right|intros I; apply N; now right]].
              exists (info_name d ++ txt ":"), bb. split; [reflexivity|]. split; [apply header_outer, info_name_ok, FC; now left|]. split; [exact BI|]. intros E. exfalso. apply N. left. now apply header_inj. }
            destruct Ic as [->|Ic].
            - exists bb. split; [now left|]. split; [|exact BR]. constructor; [exists (info_name c ++ txt ":"), bb; split; [reflexivity|]; split; [now apply header_outer|]; split; [exact BI|]; reflexivity|].
              apply OT; [exact BS|intros; apply FC; now right|exact N0].
            - destruct (IH (fun x Hx => FC x (or_intror Hx)) N1 Ic) as (bb' & I' & F' & R'). exists bb'. split; [now right|]. split; [|exact R']. constructor; [|exact F'].
              exists (info_name d ++ txt ":"), bb. split; [reflexivity|]. split; [now apply header_outer|]. split; [exact BI|]. intros E. exfalso. apply header_inj in E. apply N0. rewrite E. now apply in_map. }
          destruct Y as (bb & Y1 & Y2 & Y3). assert (Nc : name_ok (info_name c) = true) by (rewrite forallb_forall in FC; now apply info_name_ok, FC).
          destruct (block_found (info_name c) bb bs tl Nc T Y1 Y2) as (tl' & T' & E').
          exact (eq_ind_r (fun b => fronted show (specifics && lm_autosar m) false c b /\ detailed show c b) (Y3 tl' T') E').
  Qed.

End Proofs.
