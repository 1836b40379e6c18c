(** C80: what the list command prints can be read back: the names, the block of each message, in it the fields of the message and
    below "Signal details" the fields of each signal. *)
From Coq Require Import Ascii Floats.SpecFloat Permutation Sorting.Sorted.
From Verif Require Import Base PyNum Conversion Signal Message CSource CNames Regex DbcNames DbcToken Logreader DecodeCmd Xml Arxml ArxmlLoad DictLemmas DecText ListCmd.
From Verif Require TreeDraw Prop_DbcNames Prop_Cdd Prop_DecodeCmd TreeProofs.
Local Open Scope string_scope.
Local Open Scope Z_scope.
Local Open Scope list_scope.
Notation newline := TreeDraw.newline.
Notation separated := (Prop_DecodeCmd.separated).
Notation hex_number := (Prop_DecodeCmd.hex_number).

(** ** Reading *)
(** What the calls of print write, and the lines of a text *)
Definition written (lines : list chars) : chars := flat_map (fun l => l ++ [newline]) lines.
Definition lines_of (t : chars) : list chars := split_on newline t.
Definition line_is (p x : chars) : bool := match after p x with Some [] => true | _ => false end.
Definition starts (p x : chars) : bool := match after p x with Some _ => true | None => false end.
(** The lines after the first line of its kind; the lines before the first that is of another kind; the rests of the lines that
    begin with a text *)
Fixpoint below (h : chars) (l : list chars) : list chars := match l with [] => [] | x :: r => if line_is h x then r else below h r end.
Fixpoint while (p : chars -> bool) (l : list chars) : list chars := match l with [] => [] | x :: r => if p x then x :: while p r else [] end.
Definition rests (p : chars) (l : list chars) : list chars := flat_map (fun x => match after p x with Some r => [r] | None => [] end) l.
(** The lines of a message follow its name and are empty or begin with a blank. *)
Definition inner (x : chars) : bool := match x with [] => true | c :: _ => Ascii.eqb c " " end.
Definition block (name : chars) (l : list chars) : list chars := while inner (below (name ++ txt ":") l).
(** The fields of the message are above the tree and the contained messages. *)
Definition front (b : list chars) : list chars := while (fun x => negb (line_is (txt "  Signal tree:") x) && negb (line_is (txt "  Potentially contained messages:") x)) b.
Definition says2 (key : string) (b : list chars) : list chars := rests (txt "  " ++ txt key ++ txt ": ") (front b).
Definition says4 (key : string) (b : list chars) : list chars := rests (txt "    " ++ txt key ++ txt ": ") (front b).
(** Below "Signal details" a line for each signal with four blanks, its fields with six *)
Definition details (b : list chars) : list chars := below (txt "  Signal details:") b.
Definition heads (l : list chars) : list chars :=
  flat_map (fun x => match after (txt "    ") x with Some (c :: r) => if Ascii.eqb c " " then [] else [removelast (c :: r)] | _ => [] end) l.
Definition section (name : chars) (b : list chars) : list chars := while (starts (txt "      ")) (below (txt "    " ++ name ++ txt ":") (details b)).
Definition says (key : string) (sec : list chars) : list chars := rests (txt "      " ++ txt key ++ txt ": ") sec.
(** Lines with eight blanks are named values, those with ten are comments on them. *)
Definition value_lines (sec : list chars) : list chars := filter (fun x => negb (starts (txt " ") x)) (rests (txt "        ") sec).

(** ** What is to be read *)
Definition opt_list {A} (o : option A) (f : A -> chars) : list chars := match o with Some x => [f x] | None => [] end.
Definition nonempty (t : chars) : list chars := match t with [] => [] | _ => [t] end.
Definition yes_no (b : bool) : chars := if b then txt "True" else txt "False".
Definition texts_of (c : option comments_t) : comments_t := match c with Some l => l | None => [] end.
(** Names in alphabetic order with a comma between *)
Definition enumerated (names shown : list chars) : Prop :=
  (names = [] /\ shown = []) \/
  exists l t, names <> [] /\ Permutation l names /\ StronglySorted (fun a b => text_leb a b = true) l /\ separated (txt ", ") l t /\ shown = [t].
(** A number in hexadecimal and decimal digits *)
Definition identified (z : Z) (t : chars) : Prop := exists h, (0 <= z -> hex_number z 1 h) /\ t = txt "0x" ++ h ++ txt " (" ++ decimal z ++ txt ")".

Section Spec.
  Context (show : num -> chars).
  (** Numbers have the unit of the signal behind them, names of values do not. *)
  Definition measured (unit : option chars) (v : value) : chars :=
    match v with
    | VNum n => show n ++ match unit with Some (c :: u) => txt " " ++ c :: u | _ => [] end
    | VStr s | VNamed _ s => txt s
    end.
  (** What a signal is called that is selected by value [x] of its selector *)
  Definition value_called (sel : signal) (x : Z) (t : chars) : Prop :=
    (exists ch c, conv_choices (s_conv sel) = Some ch /\ zget ch x = Some c /\ t = TreeDraw.choice_text c) \/
    ((forall ch, conv_choices (s_conv sel) = Some ch -> zget ch x = None) /\ t = decimal x).
  (** A selector: a multiplexer that some signal refers to *)
  Definition selector_of (i : ainfo) (g : signal) : Prop := s_is_mux g = true /\ exists x, In x (am_signals i) /\ s_mux_sig (a_sig x) = Some (s_name g).
  (** The values are scaled visibly: the offset is not 0 or the factor is not within 1e-10 of 1. *)
  Definition scaled_visibly (c : conversion) : Prop :=
    py_eq (conv_offset c) (NInt 0) = false \/ py_gt (conv_scale c) above_one = true \/ py_lt (conv_scale c) below_one = true.

  Record described (i : ainfo) (s : asignal) (sec : list chars) : Prop := {
    d_start : says "Start bit" sec = [decimal (s_start (a_sig s))];
    d_length : says "Length" sec = [decimal (s_length (a_sig s)) ++ txt " bits"];
    d_order : says "Byte order" sec = [if s_big (a_sig s) then txt "big_endian" else txt "little_endian"];
    d_signed : says "Is signed" sec = [yes_no (s_signed (a_sig s))];
    d_float : conv_is_float (s_conv (a_sig s)) = true -> says "Internal type" sec = [txt "Float"];
    d_selector : conv_is_float (s_conv (a_sig s)) = false -> selector_of i (a_sig s) -> says "Internal type" sec = [txt "Multiplex Selector"];
    d_integer : conv_is_float (s_conv (a_sig s)) = false -> ~ selector_of i (a_sig s) -> says "Internal type" sec = [txt "Integer"];
    d_selected_by : says "Selector signal" sec = opt_list (s_mux_sig (a_sig s)) txt;
    d_selected : forall n sel, s_mux_sig (a_sig s) = Some n -> get_signal (map a_sig (am_signals i)) n = Ok sel ->
      exists ts t, Forall2 (value_called sel) (match s_mux_ids (a_sig s) with Some l => l | None => [] end) ts /\ separated (txt ", ") ts t /\ says "Selector values" sec = [t];
    d_unselected : s_mux_sig (a_sig s) = None -> says "Selector values" sec = [];
    d_receivers : enumerated (a_receivers s) (says "Receiving ECUs" sec);
    d_unit : says "Unit" sec = match a_unit s with Some u => nonempty u | None => [] end;
    d_initial : says "Initial value" sec = opt_list (a_initial s) (measured (a_unit s));
    d_invalid : says "Invalid value" sec = opt_list (a_invalid s) (measured (a_unit s));
    d_minimum : says "Minimum" sec = opt_list (s_min (a_sig s)) (fun n => measured (a_unit s) (VNum n));
    d_maximum : says "Maximum" sec = opt_list (s_max (a_sig s)) (fun n => measured (a_unit s) (VNum n));
    d_scaled : scaled_visibly (s_conv (a_sig s)) ->
      says "Offset" sec = [measured (a_unit s) (VNum (conv_offset (s_conv (a_sig s))))] /\ says "Scaling factor" sec = [measured (a_unit s) (VNum (conv_scale (s_conv (a_sig s))))];
    d_unscaled : ~ scaled_visibly (s_conv (a_sig s)) -> says "Offset" sec = [] /\ says "Scaling factor" sec = [];
    d_comments : rests (txt "      Comment[") sec = map (fun p => fst p ++ txt "]: " ++ snd p) (texts_of (a_comments s));
    d_values : value_lines sec = map (fun c => show (nv_value c) ++ txt ": " ++ nv_name c) (match a_choices s with Some l => l | None => [] end) }.

  (** The fields of a message; [autosar] says that those specific to AUTOSAR are to be shown. *)
  Record fronted (autosar container : bool) (i : ainfo) (b : list chars) : Prop := {
    f_frame : am_header i = None ->
      (exists t, identified (m_frame_id (am_core i)) t /\ says2 "Frame ID" b = [t]) /\ says2 "Header ID" b = [] /\
      says2 "Is extended frame" b = [yes_no (m_extended (am_core i))] /\ says2 "Is CAN-FD frame" b = [yes_no (am_fd i)] /\
      says2 (if container then "Maximum Size" else "Size") b = [decimal (m_length (am_core i)) ++ txt " bytes"] /\
      says2 (if container then "Size" else "Maximum Size") b = [];
    f_header : forall h, am_header i = Some h ->
      (exists t, identified h t /\ says2 "Header ID" b = [t]) /\ says2 "Frame ID" b = [] /\ says2 "Size" b = [decimal (m_length (am_core i)) ++ txt " bytes"];
    f_bus : says2 "Bus" b = match am_bus i with Some t => nonempty t | None => [] end;
    f_senders : enumerated (am_senders i) (says2 "Sending ECUs" b);
    f_cycle : says2 "Cycle time" b = opt_list (am_cycle i) (fun z => show (NInt z) ++ txt " ms");
    f_comments : rests (txt "  Comment[") (front b) = map (fun p => fst p ++ txt "]: " ++ snd p) (texts_of (am_comments i));
    f_nm : says2 "Is network management frame" b = if autosar then [yes_no (sp_nm (am_spec i))] else [];
    f_secured : says2 "Is secured" b = if autosar then [yes_no (match sp_secoc (am_spec i) with Some _ => true | None => false end)] else [];
    f_e2e : let e := if autosar then sp_e2e (am_spec i) else None in
      says4 "Category" b = opt_list e (fun e => match e_category e with Some c => c | None => txt "None" end) /\
      says4 "Protected size" b = opt_list e (fun e => decimal (e_length e) ++ txt " bytes") /\
      exists ts t, Forall2 (fun z t => t = decimal z) (match e with Some e => e_ids e | None => [] end) ts /\ separated (txt ", ") ts t /\
        says4 "Data IDs" b = opt_list e (fun _ => txt "[" ++ t ++ txt "]");
    f_secoc : let c := if autosar then sp_secoc (am_spec i) else None in
      let number o := match o with Some z => decimal z | None => txt "None" end in
      let named o := match o with Some t => t | None => txt "None" end in
      says4 "Authentication algorithm" b = opt_list c (fun c => named (so_auth c)) /\
      says4 "Freshness algorithm" b = opt_list c (fun c => named (so_fresh c)) /\
      says4 "Data ID" b = opt_list c (fun c => number (so_data_id c)) /\
      says4 "Authentication transmit bits" b = opt_list c (fun c => number (so_auth_tx c)) /\
      says4 "Freshness counter size" b = opt_list c (fun c => number (so_fresh_len c) ++ txt " bits") /\
      says4 "Freshness counter transmit size" b = opt_list c (fun c => number (so_fresh_tx c) ++ txt " bits") /\
      says4 "Secured size" b = opt_list c (fun c => decimal (so_payload c) ++ txt " bytes") }.

  Definition detailed (i : ainfo) (b : list chars) : Prop :=
    heads (details b) = map (fun s => txt (s_name (a_sig s))) (am_signals i) /\
    forall s, In s (am_signals i) -> described i s (section (txt (s_name (a_sig s))) b).
End Spec.

(** ** Texts of one line *)
Definition flat (t : chars) : bool := forallb (fun c => negb (Ascii.eqb c newline)) t.
Definition flat_opt (o : option chars) : bool := match o with Some t => flat t | None => true end.
Definition flat_comments (c : option comments_t) : bool := forallb (fun p => flat (fst p) && flat (snd p)) (texts_of c).
Definition flat_value (v : value) : bool := match v with VNum _ => true | VStr s | VNamed _ s => flat (txt s) end.
Definition flat_value_opt (o : option value) : bool := match o with Some v => flat_value v | None => true end.
(** Names do not begin with a blank and are not empty. *)
Definition name_ok (t : chars) : bool := flat t && match t with [] => false | c :: _ => negb (Ascii.eqb c " ") end.
Definition flat_signal (s : asignal) : bool :=
  name_ok (txt (s_name (a_sig s))) && flat_comments (a_comments s) && forallb flat (a_receivers s) &&
  flat_opt (a_unit s) && flat_value_opt (a_initial s) && flat_value_opt (a_invalid s) &&
  match conv_choices (s_conv (a_sig s)) with Some l => forallb (fun p => flat (TreeDraw.choice_text (snd p))) l | None => true end &&
  match a_choices s with Some l => forallb (fun c => flat (nv_name c) && flat_comments (nv_comments c)) l | None => true end.
Definition flat_info (i : ainfo) : bool :=
  name_ok (txt (m_name (am_core i))) && flat_comments (am_comments i) && flat_opt (am_bus i) && forallb flat (am_senders i) &&
  match sp_e2e (am_spec i) with Some e => flat_opt (e_category e) | None => true end &&
  match sp_secoc (am_spec i) with Some c => flat_opt (so_auth c) && flat_opt (so_fresh c) | None => true end &&
  forallb flat_signal (am_signals i).
Definition flat_message (m : lmessage) : bool :=
  flat_info (lm_info m) && match lm_contained m with Some l => forallb flat_info l | None => true end.
(** Python writes numbers in one line and without a blank at the beginning. *)
Definition shows_numbers (show : num -> chars) : Prop := forall n, name_ok (show n) = true.

(** ** Lists of lines *)
Lemma after_app p r : after p (p ++ r) = Some r.
Proof. induction p as [|c p IH]; [now destruct r|]. cbn. rewrite Ascii.eqb_refl. exact IH. Qed.
Lemma after_some p x r : after p x = Some r -> x = p ++ r.
Proof.
  revert x. induction p as [|c p IH]; intros x H; [destruct x; cbn in H; injection H as <-; reflexivity|]. destruct x as [|d x]; [discriminate|]. cbn in H.
  destruct (Ascii.eqb_spec c d) as [->|]; [|discriminate]. cbn. now rewrite (IH _ H).
Qed.
Lemma line_is_iff p x : line_is p x = true <-> x = p.
Proof.
  unfold line_is. split.
  - destruct (after p x) as [[|]|] eqn:A; try discriminate. intros _. apply after_some in A. now rewrite app_nil_r in A.
  - intros ->. rewrite <- (app_nil_r p) at 2. now rewrite after_app.
Qed.
Lemma rests_app p a b : rests p (a ++ b) = rests p a ++ rests p b. Proof. apply flat_map_app. Qed.
Lemma rests_none p l : Forall (fun x => after p x = None) l -> rests p l = [].
Proof. induction 1 as [|x l H _ IH]; [reflexivity|]. unfold rests in *. cbn [flat_map]. now rewrite H, IH. Qed.
Lemma rests_map {A} p (f : A -> chars) l : rests p (map (fun x => p ++ f x) l) = map f l.
Proof. induction l as [|x l IH]; [reflexivity|]. unfold rests in *. cbn [map flat_map]. now rewrite after_app, IH. Qed.
Lemma while_all p l r : Forall (fun x => p x = true) l -> while p (l ++ r) = l ++ while p r.
Proof. induction 1 as [|x l H _ IH]; [reflexivity|]. cbn. now rewrite H, IH. Qed.
Lemma below_skip h l r : Forall (fun x => line_is h x = false) l -> below h (l ++ r) = below h r.
Proof. induction 1 as [|x l H _ IH]; [reflexivity|]. cbn. now rewrite H. Qed.
Lemma below_here h r : below h (h :: r) = r.
Proof. cbn. assert (X : line_is h h = true) by now apply line_is_iff. now rewrite X. Qed.
Lemma comment_forall (P : chars -> Prop) ind c : (forall r, P (ind ++ txt "Comment[" ++ r)) -> Forall P (comment_lines ind c).
Proof. intros H. destruct c as [l|]; cbn; [|constructor]. apply Forall_forall. intros x I. apply in_map_iff in I. destruct I as (p & <- & _). apply H. Qed.
Lemma comment_rests ind c : rests (ind ++ txt "Comment[") (comment_lines ind c) = map (fun p => fst p ++ txt "]: " ++ snd p) (texts_of c).
Proof.
  destruct c as [l|]; cbn [comment_lines texts_of]; [|reflexivity]. rewrite (map_ext _ (fun p => (ind ++ txt "Comment[") ++ fst p ++ txt "]: " ++ snd p)); [exact (rests_map _ _ l)|]. intros p. now rewrite <- app_assoc.
Qed.
Lemma rests_eq p q l : p = q -> rests p l = rests q l. Proof. now intros ->. Qed.
Lemma comma_separated l : separated (txt ", ") l (comma_join l).
Proof. induction l as [|a l IH]; [constructor|]. destruct l as [|b l]; [constructor|]. cbn [comma_join]. constructor; [discriminate|exact IH]. Qed.
Lemma enumerated_ok names : names <> [] -> enumerated names [comma_join (sorted_texts names)].
Proof.
  intros NE. right. exists (sorted_texts names), (comma_join (sorted_texts names)). split; [exact NE|]. split; [apply sorted_py_perm|]. split; [|split; [apply comma_separated|reflexivity]].
  apply sorted_py_sorted; [|exact Prop_DbcNames.text_leb_trans]. intros a b H. destruct (Prop_DbcNames.text_leb_total a b); congruence.
Qed.
Lemma identified_ok z : identified z (hex_and_decimal z).
Proof. exists (hex_text 1 z). split; [|reflexivity]. intros H. now apply Prop_DecodeCmd.hex_text_number. Qed.

(** ** The part of a signal *)
Section Proofs.
  Context (show : num -> chars) (SH : shows_numbers show).
  Lemma show_head n : exists c r, show n = c :: r /\ Ascii.eqb c " " = false.
  Proof. assert (H := SH n). unfold name_ok in H. apply andb_prop in H. destruct H as [_ H]. destruct (show n) as [|c r]; [discriminate|]. exists c, r. split; [reflexivity|]. now apply negb_true_iff. Qed.

  Lemma named_forall (P : chars -> Prop) o : (forall c r, c = " "%char \/ Ascii.eqb c " " = false -> P (txt "        " ++ c :: r)) -> P (txt "      Named values:") -> Forall P (named_lines show [] o).
  Proof.
    intros H0 H1. destruct o as [[|c l]|]; cbn [named_lines]; try constructor; [exact H1|]. apply Forall_forall. intros x I. apply in_flat_map in I. destruct I as (d & _ & I).
    destruct I as [<-|I].
    - destruct (show_head (nv_value d)) as (a & r & -> & E). cbn [List.app]. apply H0. now right.
    - revert x I. apply Forall_forall, comment_forall. intros r. apply (H0 " "%char (" "%char :: txt "Comment[" ++ r)). now left.
  Qed.
  Definition named_block (c : named) : list chars := [txt "        " ++ show (nv_value c) ++ txt ": " ++ nv_name c] ++ comment_lines (txt "          ") (nv_comments c).
  Lemma value_lines_app a b : value_lines (a ++ b) = value_lines a ++ value_lines b.
  Proof. unfold value_lines. now rewrite rests_app, filter_app. Qed.
  Lemma value_lines_comments c : value_lines (comment_lines (txt "          ") c) = [].
  Proof.
    destruct c as [cl|]; [|reflexivity]. cbn [comment_lines]. induction cl as [|p cl IH]; [reflexivity|]. cbn [map].
    match goal with |- value_lines (?a :: ?r) = _ => change (value_lines (a :: r)) with (value_lines ([a] ++ r)) end. rewrite value_lines_app, IH. reflexivity.
  Qed.
  Lemma value_lines_one n r : value_lines [txt "        " ++ show n ++ r] = [show n ++ r].
  Proof.
    unfold value_lines, rests. cbn [flat_map]. rewrite after_app. destruct (show_head n) as (a & t & -> & E). cbn [List.app filter]. unfold starts.
    change (after (txt " ") (a :: t ++ r)) with (if Ascii.eqb " " a then Some (t ++ r) else None). now rewrite Ascii.eqb_sym, E.
  Qed.
  Lemma named_values o : value_lines (named_lines show [] o) = map (fun c => show (nv_value c) ++ txt ": " ++ nv_name c) (match o with Some l => l | None => [] end).
  Proof.
    destruct o as [[|c l]|]; try reflexivity.
    change (named_lines show [] (Some (c :: l))) with ([txt "      Named values:"] ++ flat_map named_block (c :: l)). rewrite value_lines_app.
    change (value_lines [txt "      Named values:"]) with (@nil chars). cbn [List.app].
    induction (c :: l) as [|d r IH]; [reflexivity|]. cbn [flat_map map]. unfold named_block at 1. rewrite !value_lines_app, IH, value_lines_comments, value_lines_one. reflexivity.
  Qed.

  Definition receiver_part (l : list chars) : list chars := match l with [] => [] | _ => [txt "      Receiving ECUs: " ++ comma_join (sorted_texts l)] end.
  Definition unit_part (u : chars) : list chars := match u with [] => [] | _ => [txt "      Unit: " ++ u] end.
  Definition place_part (g : signal) : list chars :=
    [txt "      Start bit: " ++ decimal (s_start g);
     txt "      Length: " ++ decimal (s_length g) ++ txt " bits";
     txt "      Byte order: " ++ (if s_big g then txt "big_endian" else txt "little_endian")].
  Definition body (sigs : list asignal) (s : asignal) (sel : list chars) : list chars :=
    let g := a_sig s in
    let unit := match a_unit s with Some u => u | None => [] end in
    comment_lines (txt "      ") (a_comments s) ++
    receiver_part (a_receivers s) ++
    [txt "      Internal type: " ++ internal_type sigs s] ++
    sel ++
    place_part g ++
    unit_part unit ++
    opt_line (a_initial s) (fun v => txt "      Initial value: " ++ format_val show v unit) ++
    opt_line (a_invalid s) (fun v => txt "      Invalid value: " ++ format_val show v unit) ++
    [txt "      Is signed: " ++ py_bool (s_signed g)] ++
    opt_line (s_min g) (fun n => txt "      Minimum: " ++ format_val show (VNum n) unit) ++
    opt_line (s_max g) (fun n => txt "      Maximum: " ++ format_val show (VNum n) unit) ++
    scaling_lines show [] unit (s_conv g) ++
    named_lines show [] (a_choices s).
  Lemma signal_lines_eq sigs s ls : signal_lines show [] sigs s = Ok ls -> exists sel, selector_lines [] sigs (a_sig s) = Ok sel /\ ls = (txt "    " ++ txt (s_name (a_sig s)) ++ txt ":") :: body sigs s sel.
  Proof. intros H. unfold signal_lines in H. apply bind_ok in H. destruct H as (sel & E & H). exists sel. split; [exact E|]. injection H as <-. unfold body, receiver_part, unit_part. cbn [List.app]. destruct (a_receivers s); destruct (match a_unit s with Some u => u | None => [] end); reflexivity. Qed.

  Lemma format_measured v u : format_val show v (match u with Some t => t | None => [] end) = measured show u v.
  Proof. destruct v; try reflexivity. destruct u as [[|c u]|]; reflexivity. Qed.

  Definition sel_shape (sel : list chars) : Prop := sel = [] \/ exists a b, sel = [txt "      Selector signal: " ++ a; txt "      Selector values: " ++ b].
  Lemma selector_shape sigs g sel : selector_lines [] sigs g = Ok sel -> sel_shape sel.
  Proof. unfold selector_lines. destruct (s_mux_sig g) as [n|]; intros H; [|injection H as <-; now left]. apply bind_ok in H. destruct H as (x & _ & H). injection H as <-. right. now do 2 eexists. Qed.

  (** The lines other than those of one key are none of its lines. *)
  Lemma none_comments p c : (forall r, after p (txt "      " ++ txt "Comment[" ++ r) = None) -> rests p (comment_lines (txt "      ") c) = [].
  Proof. intros H. apply rests_none, comment_forall, H. Qed.
  Lemma none_named p o : (forall c r, c = " "%char \/ Ascii.eqb c " " = false -> after p (txt "        " ++ c :: r) = None) -> after p (txt "      Named values:") = None -> rests p (named_lines show [] o) = [].
  Proof. intros A B. apply rests_none, named_forall; assumption. Qed.
  Lemma none_one p x : after p x = None -> rests p [x] = [].
  Proof. intros H. apply rests_none. now repeat constructor. Qed.
  Lemma none_opt {A} p (o : option A) f : (forall x, after p (f x) = None) -> rests p (opt_line o f) = [].
  Proof. intros H. apply rests_none. destruct o; repeat constructor. apply H. Qed.
  Lemma none_receivers p l : (forall t, after p (txt "      Receiving ECUs: " ++ t) = None) -> rests p (receiver_part l) = [].
  Proof. intros H. apply rests_none. destruct l; repeat constructor. apply H. Qed.
  Lemma none_unit p u : (forall t, after p (txt "      Unit: " ++ t) = None) -> rests p (unit_part u) = [].
  Proof. intros H. apply rests_none. destruct u; repeat constructor. apply H. Qed.
  Lemma none_selector p sel : (forall t, after p (txt "      Selector signal: " ++ t) = None) -> (forall t, after p (txt "      Selector values: " ++ t) = None) -> sel_shape sel -> rests p sel = [].
  Proof. intros A B [->|(a & b & ->)]; [reflexivity|]. apply rests_none. repeat constructor; auto. Qed.
  Lemma none_scaling p u c : (forall t, after p (txt "      Offset: " ++ t) = None) -> (forall t, after p (txt "      Scaling factor: " ++ t) = None) -> rests p (scaling_lines show [] u c) = [].
  Proof. intros A B. apply rests_none. unfold scaling_lines. destruct (_ || _); repeat constructor; [apply A|apply B]. Qed.
  Lemma none_place p g : (forall t, after p (txt "      Start bit: " ++ t) = None) -> (forall t, after p (txt "      Length: " ++ t) = None) -> (forall t, after p (txt "      Byte order: " ++ t) = None) -> rests p (place_part g) = [].
  Proof. intros A B C. apply rests_none. unfold place_part. repeat constructor; auto. Qed.
  Ltac none :=
    match goal with
    | |- rests _ (comment_lines _ _) = [] => apply none_comments
    | |- rests _ (receiver_part _) = [] => apply none_receivers
    | |- rests _ [_] = [] => apply none_one
    | |- rests _ (opt_line _ _) = [] => apply none_opt
    | |- rests _ (unit_part _) = [] => apply none_unit
    | |- rests _ (place_part _) = [] => apply none_place
    | |- rests _ (scaling_lines _ _ _ _) = [] => apply none_scaling
    | |- rests _ (named_lines _ _ _) = [] => apply none_named
    | H : sel_shape ?x |- rests _ ?x = [] => apply none_selector; [| |exact H]
    end; intros; reflexivity.
  Ltac sole := repeat match goal with |- context [rests ?p ?X] => let H := fresh in assert (H : rests p X = []) by none; rewrite H; clear H end; cbn [List.app]; rewrite ?app_nil_r.
  Lemma rests_opt {A} p (o : option A) (f : A -> chars) : rests p (opt_line o (fun x => p ++ f x)) = opt_list o f.
  Proof. destruct o; [|reflexivity]. unfold rests. cbn [opt_line flat_map opt_list]. now rewrite after_app. Qed.
  Lemma rests_one p x : rests p [p ++ x] = [x].
  Proof. unfold rests. cbn [flat_map]. now rewrite after_app. Qed.

  Lemma body_described i s sel : selector_lines [] (am_signals i) (a_sig s) = Ok sel -> described show i s (body (am_signals i) s sel).
  Proof.
    intros E. assert (SS := selector_shape _ _ _ E). constructor; unfold says, body; try (rewrite !rests_app; sole).
    - reflexivity.
    - reflexivity.
    - reflexivity.
    - now destruct (s_signed (a_sig s)).
    - intros F. unfold internal_type. now rewrite F.
    - intros F (M & x & I & X). unfold internal_type. rewrite F, M. cbn [andb].
      assert (Y : existsb (fun x => match s_mux_sig (a_sig x) with Some n => String.eqb n (s_name (a_sig s)) | None => false end) (am_signals i) = true).
      { apply existsb_exists. exists x. split; [exact I|]. rewrite X. apply String.eqb_refl. }
      rewrite Y. reflexivity.
    - intros F N. unfold internal_type. rewrite F. destruct (s_is_mux (a_sig s)) eqn:M; [|reflexivity]. cbn [andb].
      destruct (existsb _ (am_signals i)) eqn:Y; [|reflexivity]. exfalso. apply N. split; [exact M|]. apply existsb_exists in Y. destruct Y as (x & I & X). exists x. split; [exact I|].
      destruct (s_mux_sig (a_sig x)) as [n|]; [|discriminate]. apply String.eqb_eq in X. now subst.
    - unfold selector_lines in E. destruct (s_mux_sig (a_sig s)) as [n|]; [|injection E as <-; reflexivity]. apply bind_ok in E. destruct E as (x & _ & E). injection E as <-. reflexivity.
    - intros n sl Mx G. unfold selector_lines in E. rewrite Mx, G in E. cbn [bind] in E. injection E as <-.
      exists (map (selector_value sl) (match s_mux_ids (a_sig s) with Some l => l | None => [] end)), (comma_join (map (selector_value sl) (match s_mux_ids (a_sig s) with Some l => l | None => [] end))).
      split; [|split; [apply comma_separated|destruct (s_mux_ids (a_sig s)); reflexivity]].
      induction (match s_mux_ids (a_sig s) with Some l => l | None => [] end) as [|x l IH]; constructor; [|exact IH]. unfold value_called, selector_value.
      destruct (conv_choices (s_conv sl)) as [ch|]; [|right; split; [discriminate|reflexivity]]. destruct (zget ch x) as [c|] eqn:Z; [left; now exists ch, c|right; split; [|reflexivity]]. congruence.
    - intros Mx. unfold selector_lines in E. rewrite Mx in E. injection E as <-. reflexivity.
    - destruct (a_receivers s) as [|r l] eqn:R; [left; now split|]. change (rests _ _) with [comma_join (sorted_texts (r :: l))]. now apply enumerated_ok.
    - now destruct (a_unit s) as [[|c u]|].
    - destruct (a_initial s); [|reflexivity]. cbn [opt_line]. rewrite format_measured. reflexivity.
    - destruct (a_invalid s); [|reflexivity]. cbn [opt_line]. rewrite format_measured. reflexivity.
    - destruct (s_min (a_sig s)); [|reflexivity]. cbn [opt_line]. rewrite format_measured. reflexivity.
    - destruct (s_max (a_sig s)); [|reflexivity]. cbn [opt_line]. rewrite format_measured. reflexivity.
    - intros V. unfold scaling_lines. assert (B : negb (py_eq (conv_offset (s_conv (a_sig s))) (NInt 0)) || (py_gt (conv_scale (s_conv (a_sig s))) above_one || py_lt (conv_scale (s_conv (a_sig s))) below_one) = true).
      { unfold scaled_visibly in V. destruct V as [->|[->| ->]]; now rewrite ?orb_true_r. }
      rewrite B, !format_measured. split; reflexivity.
    - intros V. unfold scaling_lines. assert (B : negb (py_eq (conv_offset (s_conv (a_sig s))) (NInt 0)) || (py_gt (conv_scale (s_conv (a_sig s))) above_one || py_lt (conv_scale (s_conv (a_sig s))) below_one) = false).
      { unfold scaled_visibly in V. destruct (py_eq _ _), (py_gt _ _), (py_lt _ _); try reflexivity; exfalso; apply V; auto. }
      rewrite B. split; reflexivity.
    - apply (comment_rests (txt "      ")).
    - unfold value_lines. rewrite !rests_app. sole. apply named_values.
  Qed.
  Lemma body_six sigs s sel : sel_shape sel -> Forall (fun x => starts (txt "      ") x = true) (body sigs s sel).
  Proof.
    intros SS. unfold body. repeat (apply Forall_app; split).
    - now apply comment_forall.
    - destruct (a_receivers s); repeat constructor.
    - repeat constructor.
    - destruct SS as [->|(a & b & ->)]; repeat constructor.
    - repeat constructor.
    - destruct (match a_unit s with Some u => u | None => [] end); repeat constructor.
    - destruct (a_initial s); repeat constructor.
    - destruct (a_invalid s); repeat constructor.
    - repeat constructor.
    - destruct (s_min (a_sig s)); repeat constructor.
    - destruct (s_max (a_sig s)); repeat constructor.
    - unfold scaling_lines. destruct (_ || _); repeat constructor.
    - now apply named_forall.
  Qed.
  Lemma heads_app a b : heads (a ++ b) = heads a ++ heads b. Proof. apply flat_map_app. Qed.
  Lemma heads_six l : Forall (fun x => starts (txt "      ") x = true) l -> heads l = [].
  Proof.
    induction 1 as [|x l H _ IH]; [reflexivity|]. unfold starts in H. destruct (after (txt "      ") x) as [r|] eqn:A; [|discriminate]. apply after_some in A. subst x.
    unfold heads in *. cbn [flat_map]. rewrite IH. reflexivity.
  Qed.
  Lemma heads_name n : name_ok n = true -> heads [txt "    " ++ n ++ txt ":"] = [n].
  Proof.
    intros N. unfold heads. cbn [flat_map]. rewrite after_app. unfold name_ok in N. apply andb_prop in N. destruct N as [_ N]. destruct n as [|c n]; [discriminate|]. apply negb_true_iff in N.
    cbn [List.app]. rewrite N. f_equal. change (c :: n ++ txt ":") with ((c :: n) ++ [":"%char]). now rewrite removelast_last.
  Qed.
  Lemma six_not_head n x : name_ok n = true -> starts (txt "      ") x = true -> line_is (txt "    " ++ n ++ txt ":") x = false.
  Proof.
    intros N H. unfold starts in H. destruct (after (txt "      ") x) as [r|] eqn:A; [|discriminate]. apply after_some in A. subst x.
    destruct (line_is _ _) eqn:L; [|reflexivity]. exfalso. apply line_is_iff in L. unfold name_ok in N. apply andb_prop in N. destruct N as [_ N]. destruct n as [|c n]; [discriminate|].
    cbn in L. injection L as <- _. discriminate.
  Qed.
  Lemma head_not_six n r : name_ok n = true -> starts (txt "      ") (txt "    " ++ n ++ r) = false.
  Proof.
    intros N. unfold name_ok in N. apply andb_prop in N. destruct N as [_ N]. destruct n as [|c n]; [discriminate|]. apply negb_true_iff in N. unfold starts.
    change (after (txt "      ") (txt "    " ++ (c :: n) ++ r)) with (if Ascii.eqb " " c then after [" "%char] (n ++ r) else None). now rewrite Ascii.eqb_sym, N.
  Qed.
  Lemma names_differ a b : a <> b -> line_is (txt "    " ++ a ++ txt ":") (txt "    " ++ b ++ txt ":") = false.
  Proof. intros NE. destruct (line_is _ _) eqn:L; [|reflexivity]. exfalso. apply line_is_iff in L. apply app_inv_head in L. apply app_inj_tail in L. apply NE. symmetry. apply L. Qed.

  Definition tail_ok (l : list chars) : Prop := l = [] \/ l = [[]].
  Definition sig_name (s : asignal) : chars := txt (s_name (a_sig s)).
  Lemma parts_described i sigs parts tl : Forall2 (fun s p => signal_lines show [] (am_signals i) s = Ok p) sigs parts -> forallb (fun s => name_ok (sig_name s)) sigs = true -> NoDup (map sig_name sigs) -> tail_ok tl ->
    heads (List.concat parts ++ tl) = map sig_name sigs /\
    (match List.concat parts ++ tl with x :: _ => starts (txt "      ") x = false | [] => True end) /\
    forall s, In s sigs -> described show i s (while (starts (txt "      ")) (below (txt "    " ++ sig_name s ++ txt ":") (List.concat parts ++ tl))).
  Proof.
    intros F. induction F as [|s p sigs parts H F IH]; intros N D T.
    - cbn [List.concat List.app map]. destruct T as [->| ->]; (split; [reflexivity|split; [try reflexivity; exact I|intros s []]]).
    - cbn [forallb] in N. apply andb_prop in N. destruct N as [N0 N]. cbn [map] in D. inversion D as [|? ? D0 D']; subst. destruct (IH N D' T) as (HH & HF & HD).
      apply signal_lines_eq in H. destruct H as (sel & E & ->). assert (SS := selector_shape _ _ _ E). assert (S6 := body_six (am_signals i) s sel SS).
      cbn [List.concat map]. fold (sig_name s). rewrite <- app_comm_cons, <- app_comm_cons, <- app_assoc. split; [|split].
      + change (heads ((txt "    " ++ sig_name s ++ txt ":") :: body (am_signals i) s sel ++ List.concat parts ++ tl)) with (heads ([txt "    " ++ sig_name s ++ txt ":"] ++ body (am_signals i) s sel ++ List.concat parts ++ tl)).
        rewrite !heads_app, heads_name by assumption. rewrite heads_six by assumption. rewrite <- heads_app, HH. reflexivity.
      + now apply head_not_six.
      + intros s' [<-|I].
        * rewrite below_here. rewrite (while_all _ (body (am_signals i) s sel) (List.concat parts ++ tl)) by assumption. assert (X : while (starts (txt "      ")) (List.concat parts ++ tl) = []).
          { destruct (List.concat parts ++ tl) as [|x r]; [reflexivity|]. cbn [while]. now rewrite HF. }
          rewrite X, app_nil_r. now apply body_described.
        * assert (NE : sig_name s' <> sig_name s) by (intros X; apply D0; rewrite <- X; now apply in_map).
          assert (NO : name_ok (sig_name s') = true) by (rewrite forallb_forall in N; now apply N).
          cbn [below]. rewrite names_differ by assumption. rewrite below_skip; [now apply HD|]. eapply Forall_impl; [|exact S6]. intros x Hx. now apply six_not_head.
  Qed.
End Proofs.
