(** C81: what the dump command prints can be read back: a block for each message, in it the fields of the message and the drawings
    of its layout, of its signal tree and of its tables of values. *)
From Coq Require Import Ascii Permutation.
From Verif Require Import Base PyNum Conversion Signal Message CSource CNames Regex DbcNames DbcToken Logreader DecodeCmd Xml Arxml DictLemmas DecText ListCmd J1939 ListRead ListBlock DumpCmd DumpText.
From Verif Require Draw TreeDraw Did Strict CodecSpec LayoutSpec Prop_J1939 Prop_TreeDraw Prop_Cdd Prop_DecodeCmd Prop_ArxmlLinks.
Local Open Scope string_scope.
Local Open Scope Z_scope.
Local Open Scope list_scope.
Notation newline := TreeDraw.newline.

(** ** Reading *)
(** The text is cut at the lines of 72 dashes. *)
Definition dashes : chars := txt "  " ++ repeat "-"%char 72.
Fixpoint pieces (l : list chars) : list (list chars) :=
  match l with
  | [] => [[]]
  | x :: r => if line_is dashes x then [] :: pieces r else match pieces r with w :: ws => (x :: w) :: ws | [] => [[x]] end
  end.
(** The fields are above the layout or the list of the contained messages. *)
Definition top (b : list chars) : list chars := while (fun x => negb (line_is (txt "  Layout:") x) && negb (line_is (txt "  Possibly contained children:") x)) b.
Definition field (key : string) (b : list chars) : list chars := rests (txt key) (top b).
(** What stands below a heading: empty lines and those that are indented by four blanks *)
Definition deep (x : chars) : bool := match x with [] => true | _ => starts (txt "    ") x end.
Definition part (heading : string) (b : list chars) : list chars := while deep (below (txt heading) b).
Definition untab (x : chars) : chars := match after (txt "    ") x with Some r => r | None => x end.
(** without the empty lines around it *)
Definition drawing_in (heading : string) (b : list chars) : list chars := map untab (removelast (List.tl (part heading b))).

(** ** What is to be read *)
Inductive enumerated_and : list chars -> chars -> Prop :=
| and_nobody : enumerated_and [] (txt "-")
| and_one a : enumerated_and [a] a
| and_more l a t : l <> [] -> separated (txt ", ") l t -> enumerated_and (l ++ [a]) (t ++ txt " and " ++ a).
(** The parts of a J1939 identifier: three bits priority, the group, which includes the second byte only if the third is 240 or
    more and otherwise has 0 there, and the source address *)
Definition group_fields (id : Z) (b : list chars) : Prop :=
  let format := id / 2 ^ 16 mod 2 ^ 8 in
  let specific := id / 2 ^ 8 mod 2 ^ 8 in
  0 <= id < 2 ^ 29 /\
  field "      Priority:       " b = [decimal (id / 2 ^ 26)] /\
  (exists s, hex_number (id mod 2 ^ 8) 2 s /\ field "      Source:         0x" b = [s]) /\
  (format < 240 -> field "      Format:         " b = [txt "PDU 1"] /\
     (exists g, hex_number (id / 2 ^ 16 mod 2 ^ 10 * 2 ^ 8) 5 g /\ field "      PGN:            0x" b = [g]) /\
     (exists d, hex_number specific 2 d /\ field "      Destination:    " b = [txt "0x" ++ d])) /\
  (240 <= format -> field "      Format:         " b = [txt "PDU 2"] /\
     (exists g, hex_number (id / 2 ^ 8 mod 2 ^ 18) 5 g /\ field "      PGN:            0x" b = [g]) /\
     field "      Destination:    " b = [txt "All"]).
(** An entry of the output: a message, or one that is contained in the message [en_in] *)
Record entry := mkEntry { en_in : option chars; en_children : option (list chars); en_info : dinfo }.
Definition entries_of (m : dmessage) : list entry :=
  match dm_contained m with
  | None => [mkEntry None None (dm_info m)]
  | Some cs => mkEntry None (Some (map di_name cs)) (dm_info m) :: map (mkEntry (Some (dm_name m)) None) cs
  end.
Record reported (width : Z) (e : entry) (b : list chars) : Prop := {
  r_name : field "  Name:           " b = [match en_in e with Some c => c ++ txt " :: " ++ di_name (en_info e) | None => di_name (en_info e) end];
  r_id : en_in e = None -> field "  Header id:      0x" b = [] /\
    exists h, (0 <= m_frame_id (di_core (en_info e)) -> hex_number (m_frame_id (di_core (en_info e))) 1 h) /\ field "  Id:             0x" b = [h];
  r_header : en_in e <> None -> field "  Id:             0x" b = [] /\
    exists t, (forall h, di_header (en_info e) = Some h -> 0 <= h -> hex_number h 6 t) /\ field "  Header id:      0x" b = opt_list (di_header (en_info e)) (fun _ => t);
  r_length : field (match en_children e with Some _ => "  Maximum length: " | None => "  Length:         " end) b = [decimal (m_length (di_core (en_info e))) ++ txt " bytes"];
  r_no_length : field (match en_children e with Some _ => "  Length:         " | None => "  Maximum length: " end) b = [];
  r_cycle : field "  Cycle time:     " b = [match di_cycle (en_info e) with Some c => decimal c | None => txt "-" end ++ txt " ms"];
  r_senders : exists t, enumerated_and (di_senders (en_info e)) t /\ field "  Senders:        " b = [t];
  r_group : di_j1939 (en_info e) = true -> group_fields (m_frame_id (di_core (en_info e))) b;
  r_no_group : di_j1939 (en_info e) = false -> field "      Priority:       " b = [] /\ field "      PGN:            0x" b = [] /\ field "      Source:         0x" b = [] /\
    field "      Destination:    " b = [] /\ field "      Format:         " b = [];
  r_children : forall l, en_children e = Some l -> drawing_in "  Possibly contained children:" b = map (fun c => txt "  " ++ di_name (en_info e) ++ txt " :: " ++ c) l;
  r_layout : en_children e = None -> drawing_in "  Layout:" b = lines_of (Draw.layout_string (di_core (en_info e)) true);
  r_tree : en_children e = None -> exists t, TreeDraw.signal_tree_string (di_core (en_info e)) width = Ok t /\ drawing_in "  Signal tree:" b = lines_of t;
  r_tables : en_children e = None -> map untab (removelast (part "  Signal choices:" b)) =
    match TreeDraw.signal_choices_string (di_core (en_info e)) with [] => [] | t => lines_of t end }.

(** Names are words and the texts of values do not end in white space; other names are on one line. *)
Definition tidy (i : dinfo) : Prop := flat (di_name i) = true /\ Forall (fun x => flat x = true) (di_senders i) /\ words (m_signals (di_core i)) /\ texts_fine (m_signals (di_core i)).
Definition tidy_message (m : dmessage) : Prop := tidy (dm_info m) /\ forall cs c, dm_contained m = Some cs -> In c cs -> tidy c.

(** ** The fields *)
Notation all_flat := (Forall (fun x : chars => flat x = true)).
Definition opt_text (key : chars) (o : option chars) : list chars := match o with Some t => [key ++ t] | None => [] end.
Definition fields (n : chars) (id hd : option chars) (j : option (chars * chars * chars * chars * chars)) (container : bool) (len cyc sn : chars) : list chars :=
  [[]; txt "  Name:           " ++ n] ++ opt_text (txt "  Id:             0x") id ++ opt_text (txt "  Header id:      0x") hd ++
  (match j with
   | Some (p, g, s, d, f) => [txt "      Priority:       " ++ p; txt "      PGN:            0x" ++ g; txt "      Source:         0x" ++ s; txt "      Destination:    " ++ d; txt "      Format:         " ++ f]
   | None => []
   end) ++
  [(if container then txt "  Maximum length: " else txt "  Length:         ") ++ len; txt "  Cycle time:     " ++ cyc; txt "  Senders:        " ++ sn].
Definition heading (x : chars) : Prop := x = txt "  Layout:" \/ x = txt "  Possibly contained children:".
Lemma top_eq n id hd j ct len cyc sn h r : heading h -> top (fields n id hd j ct len cyc sn ++ h :: r) = fields n id hd j ct len cyc sn.
Proof.
  intros H. unfold top. rewrite while_all.
  - destruct H as [-> | ->]; cbn [while]; now rewrite app_nil_r.
  - destruct id, hd, j as [[[[[? ?] ?] ?] ?]|], ct; repeat constructor.
Qed.
Definition j_nth (k : nat) (j : option (chars * chars * chars * chars * chars)) : list chars :=
  match j with Some (p, g, s, d, f) => [nth k [p; g; s; d; f] []] | None => [] end.
Lemma fields_read n id hd j ct len cyc sn h r b : heading h -> b = fields n id hd j ct len cyc sn ++ h :: r ->
  field "  Name:           " b = [n] /\ field "  Id:             0x" b = opt_list id (fun t => t) /\ field "  Header id:      0x" b = opt_list hd (fun t => t) /\
  field "      Priority:       " b = j_nth 0 j /\ field "      PGN:            0x" b = j_nth 1 j /\ field "      Source:         0x" b = j_nth 2 j /\ field "      Destination:    " b = j_nth 3 j /\ field "      Format:         " b = j_nth 4 j /\
  field "  Maximum length: " b = (if ct then [len] else []) /\ field "  Length:         " b = (if ct then [] else [len]) /\ field "  Cycle time:     " b = [cyc] /\ field "  Senders:        " b = [sn].
Proof.
  intros H ->. unfold field. rewrite top_eq by exact H. destruct id, hd, j as [[[[[? ?] ?] ?] ?]|], ct; repeat split.
Qed.
Lemma fields_not n id hd j ct len cyc sn x : x = txt "  Layout:" \/ x = txt "  Signal tree:" \/ x = txt "  Signal choices:" \/ x = txt "  Possibly contained children:" \/ x = dashes ->
  Forall (fun l => line_is x l = false) (fields n id hd j ct len cyc sn).
Proof. intros H. destruct H as [->|[->|[->|[->| ->]]]]; destruct id, hd, j as [[[[[? ?] ?] ?] ?]|], ct; repeat constructor. Qed.

(** ** The drawings *)
Lemma untab_tab l : map untab (map tab l) = l.
Proof. rewrite map_map. rewrite <- (map_id l) at 2. apply map_ext. intros [|c x]; [reflexivity|]. unfold untab, tab. now rewrite after_app. Qed.
Lemma tab_deep l : Forall (fun x => deep x = true) (map tab l).
Proof. apply Forall_map, Forall_forall. intros [|c x] _; [reflexivity|]. reflexivity. Qed.

(** ** J1939 identifiers *)
Definition group_texts (id : Z) (j : chars * chars * chars * chars * chars) : Prop :=
  let format := id / 2 ^ 16 mod 2 ^ 8 in
  let specific := id / 2 ^ 8 mod 2 ^ 8 in
  let '(p, g, s, d, f) := j in
  0 <= id < 2 ^ 29 /\ p = decimal (id / 2 ^ 26) /\ hex_number (id mod 2 ^ 8) 2 s /\
  (format < 240 -> f = txt "PDU 1" /\ hex_number (id / 2 ^ 16 mod 2 ^ 10 * 2 ^ 8) 5 g /\ exists h, hex_number specific 2 h /\ d = txt "0x" ++ h) /\
  (240 <= format -> f = txt "PDU 2" /\ hex_number (id / 2 ^ 8 mod 2 ^ 18) 5 g /\ d = txt "All").
Ltac Zify.zify_post_hook ::= Z.div_mod_to_equations.
Lemma j_eq id ls : j1939_lines id = Ok ls -> exists p g s d f, group_texts id (p, g, s, d, f) /\
  ls = [txt "      Priority:       " ++ p; txt "      PGN:            0x" ++ g; txt "      Source:         0x" ++ s; txt "      Destination:    " ++ d; txt "      Format:         " ++ f].
Proof.
  intros H. unfold j1939_lines in H. destruct (Prop_J1939.C28_unpack id) as [U1 U2].
  assert (B : 0 <= id < 2 ^ 29). { destruct (Z_le_dec 0 id); [|rewrite U2 in H; [discriminate|lia]]. destruct (Z_lt_dec id (2 ^ 29)); [lia|]. rewrite U2 in H; [discriminate|lia]. }
  destruct (U1 B) as (u & U & F & E). rewrite U in H. cbn [bind] in H. clear U1 U2.
  destruct (Prop_J1939.C29_pack (mkPgn (fi_reserved u) (fi_data_page u) (fi_pdu_format u) (if fi_pdu_format u <? 240 then 0 else fi_pdu_specific u))) as [P _].
  unfold Prop_J1939.id_fields_ok, Prop_J1939.id_number in *. destruct P as [P1 P2].
  { unfold Prop_J1939.pgn_fields_ok. cbn [pg_reserved pg_data_page pg_pdu_format pg_pdu_specific]. destruct (Z.ltb_spec (fi_pdu_format u) 240); lia. }
  rewrite P1 in H. cbn [bind] in H. unfold Prop_J1939.pgn_number in *. cbn [pg_reserved pg_data_page pg_pdu_format pg_pdu_specific] in *.
  assert (OI : forall a b : list chars, Ok a = Ok b -> a = b) by (intros a b X; now injection X). apply OI in H. clear P1.
  do 5 eexists. split; [|symmetry; exact H]. unfold group_texts.
  change (2 ^ 26) with 67108864 in *. change (2 ^ 25) with 33554432 in *. change (2 ^ 24) with 16777216 in *. change (2 ^ 10) with 1024 in *. change (2 ^ 29) with 536870912 in *.
  change (2 ^ 17) with 131072 in *. change (2 ^ 16) with 65536 in *. change (2 ^ 8) with 256 in *. change (2 ^ 18) with 262144 in *.
  assert (EF : id / 65536 mod 256 = fi_pdu_format u) by lia. assert (ES : id / 256 mod 256 = fi_pdu_specific u) by lia. rewrite EF, ES.
  split; [exact B|]. split; [f_equal; lia|]. split; [replace (id mod 256) with (fi_source u) by lia; apply Prop_DecodeCmd.hex_text_number; lia|]. split; intros C.
  - destruct (Z.ltb_spec (fi_pdu_format u) 240); [|lia]. split; [reflexivity|]. split; [|exists (hex_text 2 (fi_pdu_specific u)); split; [apply Prop_DecodeCmd.hex_text_number; lia|reflexivity]].
    match goal with |- hex_number ?a 5 (hex_text 5 ?b) => replace a with b by lia end. apply Prop_DecodeCmd.hex_text_number. lia.
  - destruct (Z.ltb_spec (fi_pdu_format u) 240); [lia|]. split; [reflexivity|]. split; [|reflexivity].
    match goal with |- hex_number ?a 5 (hex_text 5 ?b) => replace a with b by lia end. apply Prop_DecodeCmd.hex_text_number. lia.
Qed.
Lemma and_ok i sn : format_and (di_senders (with_sender i)) = Ok sn -> enumerated_and (di_senders i) sn.
Proof.
  assert (OI : forall a b : chars, Ok a = Ok b -> a = b) by (intros a b X; now injection X).
  unfold with_sender. destruct (di_senders i) as [|a [|b l]] eqn:E; cbn [di_senders format_and]; rewrite ?E; cbn [format_and]; intros H; apply OI in H; subst sn; try constructor.
  rewrite (app_removelast_last (l := a :: b :: l) []) at 1 by discriminate. apply and_more; [discriminate|apply comma_separated].
Qed.

(** ** The fields of a message *)
Definition in_prefix (o : option chars) : chars := match o with Some c => c ++ txt " :: " | None => [] end.
Lemma front_eq o ct i f : front_lines (in_prefix o) ct i = Ok f -> exists j sn,
  enumerated_and (di_senders i) sn /\ format_and (di_senders (with_sender i)) = Ok sn /\ (di_j1939 i = true -> exists t, j = Some t /\ group_texts (m_frame_id (di_core i)) t) /\ (di_j1939 i = false -> j = None) /\
  f = fields (in_prefix o ++ di_name i) (match o with None => Some (hex_text 1 (m_frame_id (di_core i))) | Some _ => None end)
        (match o with None => None | Some _ => option_map (hex_text 6) (di_header i) end) j ct (decimal (m_length (di_core i)) ++ txt " bytes")
        (match di_cycle i with Some c => decimal c | None => txt "-" end ++ txt " ms") sn.
Proof.
  assert (OI : forall a b : list chars, Ok a = Ok b -> a = b) by (intros a b X; now injection X).
  intros H. unfold front_lines in H. apply bind_ok in H. destruct H as (j & J & H). apply bind_ok in H. destruct H as (sn & S & H). apply OI in H. subst f.
  assert (X : exists j', (di_j1939 i = true -> exists t, j' = Some t /\ group_texts (m_frame_id (di_core i)) t) /\ (di_j1939 i = false -> j' = None) /\
    j = match j' with Some (p, g, s, d, f) => [txt "      Priority:       " ++ p; txt "      PGN:            0x" ++ g; txt "      Source:         0x" ++ s; txt "      Destination:    " ++ d; txt "      Format:         " ++ f] | None => [] end).
  { destruct (di_j1939 i).
    - apply j_eq in J. destruct J as (p & g & s & d & f & G & ->). exists (Some (p, g, s, d, f)). split; [intros _; eauto|]. split; [discriminate|reflexivity].
    - injection J as <-. exists None. split; [discriminate|]. now split. }
  destruct X as (j' & X1 & X2 & ->). exists j', sn. split; [now apply and_ok|]. split; [exact S|]. split; [exact X1|]. split; [exact X2|]. unfold fields.
  destruct o as [c|]; cbn [in_prefix]; [|reflexivity]. assert (P : exists x r, c ++ txt " :: " = x :: r) by (destruct c; cbn; eauto). destruct P as (x & r & P).
  rewrite P. destruct (di_header i); reflexivity.
Qed.
Lemma flat_and l t : all_flat l -> enumerated_and l t -> flat t = true.
Proof.
  intros F E. destruct E as [|a|l a t N S]; [reflexivity|now inversion F|]. apply Forall_app in F. destruct F as [F A]. inversion A; subst. apply flat_lit; [|now apply flat_lit]. clear - F S. induction S; [reflexivity|now inversion F|]. inversion F; subst.
  apply flat_lit; [assumption|]. apply flat_lit; [reflexivity|auto].
Qed.
Lemma flat_hexn n w t : hex_number n w t -> flat t = true.
Proof.
  intros (_ & _ & H). unfold flat. rewrite forallb_forall in *. intros c I. specialize (H c I). apply negb_true_iff. destruct (Ascii.eqb_spec c newline) as [->|]; [discriminate|reflexivity].
Qed.
Lemma flat_group id p g s d f : group_texts id (p, g, s, d, f) -> flat p = true /\ flat g = true /\ flat s = true /\ flat d = true /\ flat f = true.
Proof.
  intros (B & -> & S & C & D). split; [apply flat_decimal|]. destruct (Z_lt_le_dec (id / 2 ^ 16 mod 2 ^ 8) 240) as [L|L].
  - destruct (C L) as (-> & G & h & Hh & ->). split; [now apply flat_hexn in G|]. split; [now apply flat_hexn in S|]. split; [apply flat_lit; [reflexivity|now apply flat_hexn in Hh]|reflexivity].
  - destruct (D L) as (-> & G & ->). split; [now apply flat_hexn in G|]. split; [now apply flat_hexn in S|]. now split.
Qed.
Lemma front_flat o ct i f : front_lines (in_prefix o) ct i = Ok f -> tidy i -> flat_opt o = true -> all_flat f.
Proof.
  intros H (TN & TS & _) O. apply front_eq in H. destruct H as (j & sn & S & _ & J1 & J2 & ->). unfold fields. repeat (apply Forall_app; split).
  - repeat constructor. apply flat_lit; [reflexivity|]. apply flat_lit; [|exact TN]. destruct o; [now apply flat_lit|reflexivity].
  - destruct o; repeat constructor. apply flat_lit; [reflexivity|apply flat_hex].
  - destruct o, (di_header i); repeat constructor. apply flat_lit; [reflexivity|apply flat_hex].
  - destruct (di_j1939 i); [|rewrite J2 by reflexivity; constructor]. destruct J1 as ([[[[p g] s] d] f] & -> & G); [reflexivity|]. apply flat_group in G. destruct G as (? & ? & ? & ? & ?). repeat constructor; now apply flat_lit.
  - repeat constructor.
    + apply flat_lit; [now destruct ct|]. apply flat_lit; [apply flat_decimal|reflexivity].
    + apply flat_lit; [reflexivity|]. apply flat_lit; [|reflexivity]. destruct (di_cycle i); [apply flat_decimal|reflexivity].
    + apply flat_lit; [reflexivity|]. now apply flat_and in S.
Qed.
Lemma front_reported width o ch i f h r b : front_lines (in_prefix o) (match ch with Some _ => true | None => false end) i = Ok f -> heading h -> b = f ++ h :: r ->
  (forall l, ch = Some l -> drawing_in "  Possibly contained children:" b = map (fun c => txt "  " ++ di_name i ++ txt " :: " ++ c) l) ->
  (ch = None -> drawing_in "  Layout:" b = lines_of (Draw.layout_string (di_core i) true) /\ (exists t, TreeDraw.signal_tree_string (di_core i) width = Ok t /\ drawing_in "  Signal tree:" b = lines_of t) /\
     map untab (removelast (part "  Signal choices:" b)) = match TreeDraw.signal_choices_string (di_core i) with [] => [] | t => lines_of t end) ->
  reported width (mkEntry o ch i) b.
Proof.
  intros H HD E C N. apply front_eq in H. destruct H as (j & sn & S & _ & J1 & J2 & ->).
  destruct (fields_read _ _ _ _ _ _ _ _ _ _ _ HD E) as (R1 & R2 & R3 & R4 & R5 & R6 & R7 & R8 & R9 & R10 & R11 & R12). clear E.
  constructor; cbn [en_in en_children en_info].
  - rewrite R1. destruct o; cbn [in_prefix]; [now rewrite <- app_assoc|reflexivity].
  - intros ->. split; [exact R3|]. exists (hex_text 1 (m_frame_id (di_core i))). split; [apply Prop_DecodeCmd.hex_text_number|exact R2].
  - intros O. destruct o as [c|]; [|contradiction]. split; [exact R2|]. destruct (di_header i) as [hd|]; cbn [option_map] in R3.
    + exists (hex_text 6 hd). split; [intros x [= <-]; apply Prop_DecodeCmd.hex_text_number|exact R3].
    + exists []. split; [discriminate|exact R3].
  - destruct ch; assumption.
  - destruct ch; assumption.
  - exact R11.
  - exists sn. now split.
  - intros J. destruct (J1 J) as ([[[[p g] s] d] f] & -> & B & -> & X & Y & Z). unfold group_fields. cbn [j_nth nth] in *. split; [exact B|]. split; [exact R4|]. split; [exists s; now split|]. split; intros L.
    + destruct (Y L) as (-> & G & t & T & ->). split; [exact R8|]. split; [exists g; now split|]. exists t. now split.
    + destruct (Z L) as (-> & G & ->). split; [exact R8|]. split; [exists g; now split|exact R7].
  - intros J. rewrite (J2 J) in R4, R5, R6, R7, R8. exact (conj R4 (conj R5 (conj R6 (conj R7 R8)))).
  - exact C.
  - intros X. now apply N.
  - intros X. now apply N.
  - intros X. now apply N.
Qed.

(** ** A block *)
Definition no_dashes (b : list chars) : Prop := Forall (fun x => line_is dashes x = false) b.
Lemma deep_dashes x : deep x = true -> line_is dashes x = false.
Proof. intros D. destruct (line_is dashes x) eqn:E; [|reflexivity]. apply line_is_iff in E. subst x. discriminate. Qed.
Lemma neat_flat l : neat l -> flat (tab l) = true.
Proof.
  intros [U _]. assert (F : flat l = true). { unfold flat. apply forallb_forall. intros c I. unfold unbroken in U. rewrite Forall_forall in U. specialize (U c I). apply negb_true_iff. destruct (Ascii.eqb_spec c newline) as [->|]; [discriminate|reflexivity]. }
  destruct l; [reflexivity|]. now apply (flat_lit (txt "    ")).
Qed.
Definition lump (t : chars) : list chars := map tab (split_on newline t).
Lemma lump_flat t : solid t -> all_flat (lump t).
Proof. intros [F _]. apply Forall_map. eapply Forall_impl; [|exact F]. intros l. apply neat_flat. Qed.
Lemma lump_deep t : Forall (fun x => deep x = true) (lump t).
Proof. apply tab_deep. Qed.
Lemma part_here h a l x r : Forall (fun y => line_is (txt h) y = false) a -> Forall (fun y => deep y = true) l -> deep x = false -> part h (a ++ txt h :: l ++ x :: r) = l.
Proof. intros A L X. unfold part. rewrite below_skip by exact A. rewrite below_here, while_all by exact L. cbn [while]. now rewrite X, app_nil_r. Qed.
Lemma part_end h a l : Forall (fun y => line_is (txt h) y = false) a -> Forall (fun y => deep y = true) l -> part h (a ++ txt h :: l) = l.
Proof. intros A L. unfold part. rewrite below_skip by exact A. rewrite below_here, <- (app_nil_r l) at 1. rewrite while_all by exact L. now rewrite app_nil_r. Qed.
Lemma part_none h a : Forall (fun y => line_is (txt h) y = false) a -> part h a = [].
Proof. intros A. unfold part. rewrite <- (app_nil_r a), below_skip by exact A. reflexivity. Qed.
Lemma deep_not h l : deep (txt h) = false -> Forall (fun y => deep y = true) l -> Forall (fun y => line_is (txt h) y = false) l.
Proof. intros H F. eapply Forall_impl; [|exact F]. intros y D. cbn beta in *. destruct (line_is (txt h) y) eqn:E; [|reflexivity]. apply line_is_iff in E. congruence. Qed.
Lemma around_deep l : Forall (fun x => deep x = true) l -> Forall (fun x => deep x = true) ([] :: l ++ [[]]).
Proof. intros F. constructor; [reflexivity|]. apply Forall_app. split; [exact F|now repeat constructor]. Qed.
Lemma trimmed l : removelast (List.tl ([] :: l ++ [[]])) = (l : list chars).
Proof. cbn [List.tl]. apply removelast_last. Qed.
Definition table_part (t : chars) : list chars := match t with [] => [] | _ => txt "  Signal choices:" :: lump t ++ [[]] end.
Lemma body_eq width i b : body_lines width i = Ok b -> tidy i -> exists t, TreeDraw.signal_tree_string (di_core i) width = Ok t /\ solid t /\ solid (Draw.layout_string (di_core i) true) /\
  (TreeDraw.signal_choices_string (di_core i) = [] \/ solid (TreeDraw.signal_choices_string (di_core i))) /\
  b = txt "  Layout:" :: ([] :: lump (Draw.layout_string (di_core i) true) ++ [[]]) ++ txt "  Signal tree:" :: ([] :: lump t ++ [[]]) ++ table_part (TreeDraw.signal_choices_string (di_core i)).
Proof.
  assert (OI : forall a b : list chars, Ok a = Ok b -> a = b) by (intros x y X; now injection X).
  intros H (_ & _ & W & T). unfold body_lines in H. apply bind_ok in H. destruct H as (t & E & H). apply OI in H. subst b. exists t. split; [exact E|]. assert (S1 := tree_solid _ _ _ W T E). assert (S2 := layout_solid _ W).
  split; [exact S1|]. split; [exact S2|].
  assert (S3 : TreeDraw.signal_choices_string (di_core i) = [] \/ solid (TreeDraw.signal_choices_string (di_core i))).
  { destruct (choices_solid _ W T) as [N|[S _]]; [left; unfold TreeDraw.signal_choices_string; now rewrite N|now right]. }
  split; [exact S3|]. rewrite (indented_eq _ S1), (indented_eq _ S2). fold (lump t) (lump (Draw.layout_string (di_core i) true)).
  assert (X : match TreeDraw.signal_choices_string (di_core i) with [] => [] | c :: l => txt "  Signal choices:" :: indented (c :: l) ++ [[]] end = table_part (TreeDraw.signal_choices_string (di_core i))).
  { unfold table_part. destruct (TreeDraw.signal_choices_string (di_core i)) as [|c l]; [reflexivity|]. destruct S3 as [S3|S3]; [discriminate|]. now rewrite (indented_eq _ S3). }
  etransitivity; [|cbn [List.app]; repeat (rewrite <- app_assoc; cbn [List.app]); reflexivity]. cbn [List.app]. rewrite <- X. reflexivity.
Qed.
Lemma regroup (a p q c : list chars) x y : a ++ x :: p ++ y :: q ++ c = (a ++ x :: p ++ y :: q) ++ c.
Proof. rewrite <- app_assoc. cbn [List.app]. rewrite <- app_assoc. reflexivity. Qed.
Lemma simple_block width o i ls : dump_simple width (in_prefix o) i = Ok ls -> tidy i -> flat_opt o = true ->
  exists b, ls = b ++ [dashes] /\ all_flat b /\ no_dashes b /\ reported width (mkEntry o None i) b.
Proof.
  assert (OI : forall a b : list chars, Ok a = Ok b -> a = b) by (intros x y X; now injection X).
  intros H T O. unfold dump_simple in H. apply bind_ok in H. destruct H as (f & F & H). apply bind_ok in H. destruct H as (b & B & H). apply OI in H. subst ls.
  exists (f ++ b). split; [now rewrite app_assoc|]. assert (FF := front_flat _ _ _ _ F T O). destruct (body_eq _ _ _ B T) as (t & ET & S1 & S2 & S3 & EB). subst b.
  set (L := lump (Draw.layout_string (di_core i) true)) in *. set (TR := lump t) in *. set (C := table_part (TreeDraw.signal_choices_string (di_core i))) in *.
  assert (DL := around_deep _ (lump_deep (Draw.layout_string (di_core i) true))). fold L in DL. assert (DT := around_deep _ (lump_deep t)). fold TR in DT.
  assert (NF : forall x, x = txt "  Layout:" \/ x = txt "  Signal tree:" \/ x = txt "  Signal choices:" \/ x = txt "  Possibly contained children:" \/ x = dashes -> Forall (fun l => line_is x l = false) f).
  { intros x X. destruct (front_eq _ _ _ _ F) as (j & sn & _ & _ & _ & _ & ->). now apply fields_not. }
  assert (CF : all_flat C). { unfold C, table_part. destruct (TreeDraw.signal_choices_string (di_core i)) as [|c l]; [constructor|]. destruct S3 as [S3|S3]; [discriminate|]. constructor; [reflexivity|]. apply Forall_app. split; [now apply lump_flat|now repeat constructor]. }
  assert (CD : no_dashes C). { unfold C, table_part. destruct (TreeDraw.signal_choices_string (di_core i)) as [|c l]; [constructor|]. constructor; [reflexivity|]. apply Forall_app. split; [|now repeat constructor]. eapply Forall_impl; [|apply lump_deep]. apply deep_dashes. }
  split; [|split].
  - apply Forall_app. split; [exact FF|]. constructor; [reflexivity|]. apply Forall_app. split; [constructor; [reflexivity|]; apply Forall_app; split; [now apply lump_flat|now repeat constructor]|].
    constructor; [reflexivity|]. apply Forall_app. split; [|exact CF]. constructor; [reflexivity|]; apply Forall_app; split; [now apply lump_flat|now repeat constructor].
  - apply Forall_app. split; [apply NF; now do 4 right|]. constructor; [reflexivity|]. apply Forall_app. split; [eapply Forall_impl; [|exact DL]; apply deep_dashes|]. constructor; [reflexivity|].
    apply Forall_app. split; [eapply Forall_impl; [|exact DT]; apply deep_dashes|exact CD].
  - eapply (front_reported width o None i f); [exact F|left; reflexivity|reflexivity|discriminate|]. intros _. split; [|split].
    + unfold drawing_in. rewrite part_here; [|apply NF; now left|exact DL|reflexivity]. rewrite trimmed. apply untab_tab.
    + exists t. split; [exact ET|]. unfold drawing_in.
      assert (A : Forall (fun y => line_is (txt "  Signal tree:") y = false) (f ++ txt "  Layout:" :: [] :: L ++ [[]])).
      { apply Forall_app. split; [apply NF; right; now left|]. constructor; [reflexivity|]. now apply deep_not. }
      assert (P : part "  Signal tree:" (f ++ txt "  Layout:" :: ([] :: L ++ [[]]) ++ txt "  Signal tree:" :: ([] :: TR ++ [[]]) ++ C) = [] :: TR ++ [[]]).
      { rewrite (app_comm_cons ([] :: L ++ [[]])), app_assoc. unfold C, table_part. destruct (TreeDraw.signal_choices_string (di_core i)) as [|c l]; [rewrite app_nil_r; now apply part_end|]. apply part_here; [exact A|exact DT|reflexivity]. }
      rewrite P, trimmed. apply untab_tab.
    + assert (A : Forall (fun y => line_is (txt "  Signal choices:") y = false) (f ++ txt "  Layout:" :: ([] :: L ++ [[]]) ++ txt "  Signal tree:" :: [] :: TR ++ [[]])).
      { apply Forall_app. split; [apply NF; right; right; now left|]. constructor; [reflexivity|]. apply Forall_app. split; [now apply deep_not|]. constructor; [reflexivity|]. now apply deep_not. }
      assert (R : f ++ txt "  Layout:" :: ([] :: L ++ [[]]) ++ txt "  Signal tree:" :: ([] :: TR ++ [[]]) ++ C = (f ++ txt "  Layout:" :: ([] :: L ++ [[]]) ++ txt "  Signal tree:" :: [] :: TR ++ [[]]) ++ C).
      { apply regroup. }
      rewrite R. unfold C, table_part. destruct (TreeDraw.signal_choices_string (di_core i)) as [|c l] eqn:ES; [rewrite app_nil_r, part_none by exact A; reflexivity|].
      rewrite part_end; [|exact A|apply Forall_app; split; [apply lump_deep|now repeat constructor]]. rewrite removelast_last. apply untab_tab.
Qed.

(** ** The output *)
Lemma pieces_cut b r : no_dashes b -> pieces (b ++ dashes :: r) = b :: pieces r.
Proof.
  induction 1 as [|x b X _ IH]; [cbn [List.app pieces]; assert (E : line_is dashes dashes = true) by (now apply line_is_iff); now rewrite E|]. cbn [List.app pieces]. rewrite X, IH. reflexivity.
Qed.
Definition closed (blocks : list (list chars)) : list chars := flat_map (fun b => b ++ [dashes]) blocks.
Lemma pieces_closed blocks r : Forall no_dashes blocks -> pieces (closed blocks ++ r) = blocks ++ pieces r.
Proof.
  induction 1 as [|b blocks B _ IH]; [reflexivity|]. unfold closed in *. cbn [flat_map]. rewrite <- !app_assoc. change ([dashes] ++ flat_map (fun b => b ++ [dashes]) blocks ++ r) with (dashes :: flat_map (fun b => b ++ [dashes]) blocks ++ r).
  rewrite pieces_cut by exact B. now rewrite IH.
Qed.
Lemma closed_app a b : closed (a ++ b) = closed a ++ closed b. Proof. apply flat_map_app. Qed.
Definition block_ok (width : Z) (e : entry) (b : list chars) : Prop := all_flat b /\ no_dashes b /\ reported width e b.
Lemma children_blocks width c cs ls : mapM (dump_simple width (in_prefix (Some c))) cs = Ok ls -> (forall x, In x cs -> tidy x) -> flat c = true ->
  exists blocks, List.concat ls = closed blocks /\ Forall2 (block_ok width) (map (mkEntry (Some c) None) cs) blocks.
Proof.
  intros M T C. apply mapM_ok in M. induction M as [|i l cs ls X M IH]; [exists []; split; [reflexivity|constructor]|]. destruct IH as (bl & E & F); [intros; apply T; now right|].
  destruct (simple_block width (Some c) i l X) as (b & -> & B1 & B2 & B3); [apply T; now left|exact C|]. exists (b :: bl). split; [cbn [List.concat]; rewrite E; reflexivity|]. cbn [map]. constructor; [now split|exact F].
Qed.
Lemma message_blocks width m ls : dump_message width m = Ok ls -> tidy_message m -> exists blocks, ls = closed blocks /\ Forall2 (block_ok width) (entries_of m) blocks.
Proof.
  assert (OI : forall a b : list chars, Ok a = Ok b -> a = b) by (intros x y X; now injection X).
  intros H [T TC]. unfold dump_message in H. unfold entries_of. destruct (dm_contained m) as [cs|] eqn:E.
  - apply bind_ok in H. destruct H as (f & F & H). apply bind_ok in H. destruct H as (ch & M & H). apply OI in H. subst ls. assert (FN : flat (dm_name m) = true) by apply T.
    destruct (children_blocks width (dm_name m) cs ch M) as (bl & EB & FB); [intros x I; now apply (TC cs)|exact FN|].
    set (L := map (fun c => txt "      " ++ dm_name m ++ txt " :: " ++ di_name c) cs) in *.
    assert (DL : Forall (fun x => deep x = true) L) by (apply Forall_map, Forall_forall; reflexivity). assert (DA := around_deep _ DL).
    assert (NF : forall x, x = txt "  Layout:" \/ x = txt "  Signal tree:" \/ x = txt "  Signal choices:" \/ x = txt "  Possibly contained children:" \/ x = dashes -> Forall (fun l => line_is x l = false) f).
    { intros x X. destruct (front_eq None _ _ _ F) as (j & sn & _ & _ & _ & _ & ->). now apply fields_not. }
    set (b := f ++ txt "  Possibly contained children:" :: [] :: L ++ [[]]). exists (b :: bl). split.
    + rewrite EB. unfold b, closed. cbn [flat_map]. rewrite <- !app_assoc. cbn [List.app]. rewrite <- !app_assoc. reflexivity.
    + constructor; [|exact FB]. split; [|split].
      * apply Forall_app. split; [apply (front_flat None _ _ _ F T eq_refl)|]. constructor; [reflexivity|]. constructor; [reflexivity|]. apply Forall_app. split; [|now repeat constructor]. apply Forall_map, Forall_forall. intros c I.
        apply flat_lit; [reflexivity|]. apply flat_lit; [exact FN|]. apply flat_lit; [reflexivity|]. apply (TC cs c eq_refl I).
      * apply Forall_app. split; [apply NF; now do 4 right|]. constructor; [reflexivity|]. eapply Forall_impl; [|exact DA]. apply deep_dashes.
      * eapply (front_reported width None (Some (map di_name cs)) (dm_info m) f); [exact F|right; reflexivity|reflexivity| |discriminate]. intros l [= <-]. unfold b, drawing_in.
        rewrite part_end; [|apply NF; do 3 right; now left|exact DA]. rewrite trimmed. unfold L. rewrite !map_map. apply map_ext. intros c. reflexivity.
  - destruct (simple_block width None (dm_info m) ls H T eq_refl) as (b & -> & B). exists [b]. split; [unfold closed; cbn [flat_map]; now rewrite app_nil_r|]. constructor; [exact B|constructor].
Qed.
Lemma messages_blocks width l ls : mapM (dump_message width) l = Ok ls -> (forall m, In m l -> tidy_message m) -> exists blocks, List.concat ls = closed blocks /\ Forall2 (block_ok width) (flat_map entries_of l) blocks.
Proof.
  intros M T. apply mapM_ok in M. induction M as [|m x l ls X M IH]; [exists []; split; [reflexivity|constructor]|]. destruct IH as (bl & E & F); [intros; apply T; now right|].
  destruct (message_blocks width m x X) as (b & -> & B); [apply T; now left|]. exists (b ++ bl). split; [cbn [List.concat]; now rewrite E, closed_app|]. cbn [flat_map]. now apply Forall2_app.
Qed.
Definition banner : chars := repeat "="%char 33 ++ txt " Messages " ++ repeat "="%char 33.
(** The text that is written for the messages of a database, cut at the lines of dashes, has a block for each message, in the order
    of the database, and after that of a container the blocks of the messages in it.  In each block the fields and the drawings of
    its message are found. *)
Theorem C81_blocks width db out db' : (forall m, In m db -> tidy_message m) -> dump_messages width db = Ok (out, db') ->
  exists blocks, pieces (lines_of (written out)) = [banner; []] :: blocks ++ [[[]]] /\ Forall2 (reported width) (flat_map entries_of db) blocks.
Proof.
  intros T H. unfold dump_messages in H. apply bind_ok in H. destruct H as (ls & M & H). assert (OI : forall a b : list chars * list dmessage, Ok a = Ok b -> a = b) by (intros x y X; now injection X). apply OI in H. apply (f_equal fst) in H. cbn [fst] in H.
  destruct (messages_blocks width db ls M T) as (bl & E & F). exists bl. rewrite E in H.
  assert (EO : out = banner :: [] :: dashes :: closed bl) by (rewrite <- H; reflexivity).
  assert (AF : Forall (fun b => all_flat b /\ no_dashes b) bl) by (clear - F; induction F as [|e b es bl (A & B & _) _ IH]; constructor; auto).
  split; [|eapply Forall2_weaken; [|exact F]; now intros e b (_ & _ & R)].
  rewrite EO, split_written.
  - change ((banner :: [] :: dashes :: closed bl) ++ [[]]) with ([banner; []] ++ dashes :: closed bl ++ [[]]). rewrite pieces_cut by now repeat constructor. rewrite pieces_closed; [reflexivity|]. eapply Forall_impl; [|exact AF]. now intros b [].
  - constructor; [reflexivity|]. constructor; [reflexivity|]. constructor; [reflexivity|]. clear - AF. unfold closed. induction AF as [|b bl [A _] _ IH]; [constructor|]. cbn [flat_map]. apply Forall_app. split; [|exact IH]. apply Forall_app. split; [exact A|now repeat constructor].
Qed.

(** ** The message that is asked for *)
(** Of several messages with one name it is the last. *)
Definition last_named (db : list dmessage) (n : chars) (m : dmessage) : Prop := exists a b, db = a ++ m :: b /\ dm_name m = n /\ ~ In n (map dm_name b).
Lemma named_fold db : dumped_by_name db = fold_left (fun d p => dset chars_eqb d (fst p) (snd p)) (map (fun m => (dm_name m, m)) db) [].
Proof. unfold dumped_by_name. generalize (@nil (chars * dmessage)). induction db as [|m db IH]; intros d; [reflexivity|]. cbn [map fold_left fst snd]. apply IH. Qed.
Lemma named_get db n m : dget chars_eqb (dumped_by_name db) n = Some m <-> last_named db n m.
Proof.
  rewrite named_fold, Prop_Cdd.last_get0. unfold Prop_Cdd.is_last, last_named. split.
  - intros (a & b & E & N). apply map_eq_app in E. destruct E as (a' & b' & -> & <- & E). destruct b' as [|m' b']; [discriminate|]. cbn [map] in E. injection E as <- <- E. exists a', b'. split; [reflexivity|]. split; [reflexivity|].
    intros I. apply N. rewrite <- E, map_map. exact I.
  - intros (a & b & -> & <- & N). exists (map (fun m => (dm_name m, m)) a), (map (fun m => (dm_name m, m)) b). split; [now rewrite map_app|]. rewrite map_map. exact N.
Qed.
Lemma named_none db n : dget chars_eqb (dumped_by_name db) n = None <-> ~ In n (map dm_name db).
Proof. rewrite named_fold, Prop_Cdd.last_none, map_map. reflexivity. Qed.
(** With the name of a message only that is printed, and what is printed of it is also in what is printed without a name.  Without
    such a message there is a KeyError. *)
Theorem C81_option width db n :
  (~ In n (map dm_name db) -> do_dump width (Some n) db = Err KeyError) /\
  (forall out db', (forall m, In m db -> tidy_message m) -> do_dump width (Some n) db = Ok (out, db') ->
     exists m blocks, last_named db n m /\ pieces (lines_of (written out)) = [banner; []] :: blocks ++ [[[]]] /\ Forall2 (reported width) (entries_of m) blocks) /\
  (forall out db', In n (map dm_name db) -> do_dump width None db = Ok (out, db') ->
     exists text before after m, do_dump width (Some n) db = Ok (firstn 3 out ++ text, [after_dump m]) /\ out = before ++ text ++ after /\ In (after_dump m) db' /\ last_named db n m).
Proof.
  split; [|split].
  - intros N. apply named_none in N. unfold do_dump. now rewrite N.
  - intros out db' T H. unfold do_dump in H. destruct (dget chars_eqb (dumped_by_name db) n) as [m|] eqn:E; [|discriminate]. apply named_get in E. exists m. destruct (C81_blocks width [m] out db') as (bl & P & F); [|exact H|].
    + intros x [<-|[]]. destruct E as (a & b & -> & _). apply T, in_elt.
    + exists bl. split; [exact E|]. split; [exact P|]. cbn [flat_map] in F. now rewrite app_nil_r in F.
  - intros out db' I H. unfold do_dump in *. destruct (dget chars_eqb (dumped_by_name db) n) as [m|] eqn:E; [|apply named_none in E; contradiction]. apply named_get in E. destruct E as (a & b & D & X).
    unfold dump_messages in *. apply bind_ok in H. destruct H as (ls & M & H). assert (OI : forall a b : list chars * list dmessage, Ok a = Ok b -> a = b) by (intros x y Z; now injection Z). apply OI in H.
    assert (HO := f_equal fst H). assert (HD := f_equal snd H). cbn [fst snd] in HO, HD. clear H. apply mapM_ok in M. rewrite D in M. apply Forall2_app_inv_l in M. destruct M as (la & lb & _ & M & L). inversion M as [|? t ? lb' MT _ E1 E2]. subst lb. subst ls.
    exists t. exists ([txt "================================= Messages ================================="; []; ruler] ++ List.concat la), (List.concat lb'), m. cbn [mapM]. rewrite MT. cbn [bind List.concat map].
    split; [rewrite app_nil_r, <- HO; reflexivity|]. split; [rewrite <- HO, concat_app; cbn [List.concat]; now rewrite <- app_assoc|]. split; [rewrite <- HD; apply in_map; rewrite D; apply in_elt|]. exists a, b. now split.
Qed.

(** ** What is left of the database *)
(** Only the senders of messages without senders change: they become "-". *)
Definition dashed (i i' : dinfo) : Prop :=
  di_core i' = di_core i /\ di_cycle i' = di_cycle i /\ di_header i' = di_header i /\ di_j1939 i' = di_j1939 i /\ (di_senders i <> [] -> di_senders i' = di_senders i) /\ (di_senders i = [] -> di_senders i' = [txt "-"]).
Definition dashed_message (m m' : dmessage) : Prop :=
  dashed (dm_info m) (dm_info m') /\
  match dm_contained m, dm_contained m' with None, None => True | Some l, Some l' => Forall2 dashed l l' | _, _ => False end.
Lemma dashed_with i : dashed i (with_sender i).
Proof. unfold with_sender. destruct (di_senders i) eqn:E; unfold dashed; cbn [di_core di_senders di_cycle di_header di_j1939]; repeat split; congruence. Qed.
Lemma twice i : with_sender (with_sender i) = with_sender i.
Proof. unfold with_sender. destruct (di_senders i) eqn:E; [reflexivity|now rewrite E]. Qed.
Lemma front_again p ct i : front_lines p ct (with_sender i) = front_lines p ct i.
Proof. unfold front_lines. rewrite twice. destruct (dashed_with i) as (A & B & C & D & _). unfold di_name. now rewrite A, B, C, D. Qed.
Lemma simple_again width p i : dump_simple width p (with_sender i) = dump_simple width p i.
Proof. unfold dump_simple. rewrite front_again. unfold body_lines. now rewrite (proj1 (dashed_with i)). Qed.
Lemma mapM_map {A B C} (f : B -> result C) (g : A -> B) l : mapM f (map g l) = mapM (fun x => f (g x)) l.
Proof. induction l as [|x l IH]; [reflexivity|]. cbn [map mapM]. now rewrite IH. Qed.
Lemma mapM_ext {A B} (f g : A -> result B) l : (forall x, f x = g x) -> mapM f l = mapM g l.
Proof. intros E. induction l as [|x l IH]; [reflexivity|]. cbn [mapM]. now rewrite E, IH. Qed.
Lemma with_name i : di_name (with_sender i) = di_name i.
Proof. unfold di_name. now rewrite (proj1 (dashed_with i)). Qed.
Lemma message_again width m : dump_message width (after_dump m) = dump_message width m.
Proof.
  unfold dump_message, after_dump. cbn [dm_contained dm_info]. destruct (dm_contained m) as [cs|]; cbn [option_map]; [|apply simple_again]. rewrite front_again. unfold dm_name. cbn [dm_info]. rewrite with_name, mapM_map, map_map.
  rewrite (mapM_ext (fun x => dump_simple width (di_name (dm_info m) ++ txt " :: ") (with_sender x)) (dump_simple width (di_name (dm_info m) ++ txt " :: "))) by (intros; apply simple_again).
  rewrite (map_ext (fun x => txt "      " ++ di_name (dm_info m) ++ txt " :: " ++ di_name (with_sender x)) (fun x => txt "      " ++ di_name (dm_info m) ++ txt " :: " ++ di_name x)) by (intros; now rewrite with_name). reflexivity.
Qed.
(** Dumping a second time, with the same width, gives the same text and changes nothing more. *)
Theorem C81_again width db out db' : dump_messages width db = Ok (out, db') -> Forall2 dashed_message db db' /\ dump_messages width db' = Ok (out, db').
Proof.
  intros H. unfold dump_messages in *. apply bind_ok in H. destruct H as (ls & M & H). assert (OI : forall a b : list chars * list dmessage, Ok a = Ok b -> a = b) by (intros x y Z; now injection Z). apply OI in H.
  assert (HO := f_equal fst H). assert (HD := f_equal snd H). cbn [fst snd] in HO, HD. clear H OI. rewrite <- HD, <- HO. clear HD HO. split.
  - clear. induction db as [|m db IH]; constructor; [|exact IH]. split; [apply dashed_with|]. unfold after_dump. cbn [dm_contained]. destruct (dm_contained m) as [l|]; [|exact I]. cbn [option_map]. clear. induction l; constructor; [apply dashed_with|assumption].
  - rewrite mapM_map, (mapM_ext (fun x => dump_message width (after_dump x)) (dump_message width)) by (intros; apply message_again). rewrite M. cbn [bind]. rewrite map_map.
    rewrite (map_ext (fun x => after_dump (after_dump x)) after_dump); [reflexivity|]. intros m. unfold after_dump. cbn [dm_info dm_contained]. rewrite twice. f_equal. destruct (dm_contained m); [|reflexivity]. cbn [option_map]. rewrite map_map. f_equal. apply map_ext, twice.
Qed.

(** ** What the text tells *)
(** The identifier of a J1939 message can be put together from its parts. *)
Theorem C81_identifier_read id id' b : group_fields id b -> group_fields id' b -> id = id'.
Proof.
  intros (B & P & (s & S1 & S2) & L & G) (B' & P' & (s' & S1' & S2') & L' & G').
  assert (SI : forall x y : chars, [x] = [y] -> x = y) by (intros x y X; now injection X).
  assert (EP : id / 2 ^ 26 = id' / 2 ^ 26) by (apply decimal_inj, SI; congruence).
  assert (ES : id mod 2 ^ 8 = id' mod 2 ^ 8) by (assert (s = s') by (apply SI; congruence); destruct S1 as [<- _], S1' as [<- _]; congruence).
  assert (NF : field "      Format:         " b = [txt "PDU 1"] -> field "      Format:         " b = [txt "PDU 2"] -> False) by (intros X Y; rewrite X in Y; discriminate).
  destruct (Z_lt_le_dec (id / 2 ^ 16 mod 2 ^ 8) 240) as [A|A], (Z_lt_le_dec (id' / 2 ^ 16 mod 2 ^ 8) 240) as [A'|A'].
  - destruct (L A) as (_ & (g & G1 & G2) & d & D1 & D2), (L' A') as (_ & (g' & G1' & G2') & d' & D1' & D2').
    assert (EG : id / 2 ^ 16 mod 2 ^ 10 * 2 ^ 8 = id' / 2 ^ 16 mod 2 ^ 10 * 2 ^ 8) by (assert (g = g') by (apply SI; congruence); destruct G1 as [<- _], G1' as [<- _]; congruence).
    assert (ED : id / 2 ^ 8 mod 2 ^ 8 = id' / 2 ^ 8 mod 2 ^ 8). { assert (d = d') by (rewrite D2 in D2'; apply SI in D2'; cbn in D2'; congruence). destruct D1 as [<- _], D1' as [<- _]; congruence. }
    clear - B B' EP ES EG ED. lia.
  - exfalso. apply NF; [apply (L A)|apply (G' A')].
  - exfalso. apply NF; [apply (L' A')|apply (G A)].
  - destruct (G A) as (_ & (g & G1 & G2) & _), (G' A') as (_ & (g' & G1' & G2') & _).
    assert (EG : id / 2 ^ 8 mod 2 ^ 18 = id' / 2 ^ 8 mod 2 ^ 18) by (assert (g = g') by (apply SI; congruence); destruct G1 as [<- _], G1' as [<- _]; congruence).
    clear - B B' EP ES EG. lia.
Qed.
Definition full_name (e : entry) : chars := match en_in e with Some c => c ++ txt " :: " ++ di_name (en_info e) | None => di_name (en_info e) end.
Definition top_level (e : entry) : bool := match en_in e with None => true | Some _ => false end.
(** Two entries that cannot be told apart *)
Record alike (width width' : Z) (e e' : entry) : Prop := {
  a_name : full_name e = full_name e';
  a_level : top_level e = top_level e';
  a_id : top_level e = true -> 0 <= m_frame_id (di_core (en_info e)) -> 0 <= m_frame_id (di_core (en_info e')) -> m_frame_id (di_core (en_info e)) = m_frame_id (di_core (en_info e'));
  a_header : top_level e = false -> (forall h, di_header (en_info e) = Some h -> 0 <= h) -> (forall h, di_header (en_info e') = Some h -> 0 <= h) -> di_header (en_info e) = di_header (en_info e');
  a_length : m_length (di_core (en_info e)) = m_length (di_core (en_info e'));
  a_cycle : di_cycle (en_info e) = di_cycle (en_info e');
  a_senders : exists t, enumerated_and (di_senders (en_info e)) t /\ enumerated_and (di_senders (en_info e')) t;
  a_protocol : di_j1939 (en_info e) = di_j1939 (en_info e');
  a_children : top_level e = true -> en_children e = en_children e';
  a_drawings : en_children e = None -> en_children e' = None ->
    Draw.layout_string (di_core (en_info e)) true = Draw.layout_string (di_core (en_info e')) true /\
    (exists t, TreeDraw.signal_tree_string (di_core (en_info e)) width = Ok t /\ TreeDraw.signal_tree_string (di_core (en_info e')) width' = Ok t) /\
    TreeDraw.signal_choices_string (di_core (en_info e)) = TreeDraw.signal_choices_string (di_core (en_info e')) }.
Lemma lines_inj a b : lines_of a = lines_of b -> a = b.
Proof. unfold lines_of. intros H. rewrite <- (Prop_ArxmlLinks.join_split newline a), <- (Prop_ArxmlLinks.join_split newline b). now rewrite H. Qed.
Lemma lines_some t : lines_of t <> [].
Proof. unfold lines_of. destruct (split_some newline t) as (w & ws & E). rewrite E. discriminate. Qed.
Lemma cycle_text a b : match a with Some c => decimal c | None => txt "-" end ++ txt " ms" = match b with Some c => decimal c | None => txt "-" end ++ txt " ms" -> a = b.
Proof.
  intros H. apply app_inv_tail in H. assert (N : forall c, decimal c <> txt "-") by (intros c X; assert (Y := int_decimal c); rewrite X in Y; discriminate). destruct a as [a|], b as [b|].
  - now apply decimal_inj in H as ->.
  - now apply N in H.
  - symmetry in H. now apply N in H.
  - reflexivity.
Qed.
Lemma same_block width width' e e' b : reported width e b -> reported width' e' b -> alike width width' e e'.
Proof.
  intros R R'. assert (SI : forall x y : chars, [x] = [y] -> x = y) by (intros x y X; now injection X).
  assert (NM : full_name e = full_name e') by (apply SI; exact (eq_trans (eq_sym (r_name _ _ _ R)) (r_name _ _ _ R'))).
  assert (LV : top_level e = top_level e').
  { unfold top_level. assert (A := r_id _ _ _ R). assert (B := r_header _ _ _ R). assert (A' := r_id _ _ _ R'). assert (B' := r_header _ _ _ R'). destruct (en_in e), (en_in e'); try reflexivity; exfalso.
    - destruct (B ltac:(discriminate)) as (X & _), (A' eq_refl) as (_ & h & _ & Y). rewrite X in Y. discriminate.
    - destruct (B' ltac:(discriminate)) as (X & _), (A eq_refl) as (_ & h & _ & Y). rewrite X in Y. discriminate. }
  assert (ML : field "  Maximum length: " b = [] <-> en_children e = None).
  { assert (A := r_length _ _ _ R). assert (B := r_no_length _ _ _ R). destruct (en_children e); split; try discriminate; intros X; [rewrite X in A; discriminate|reflexivity|exact B]. }
  assert (ML' : field "  Maximum length: " b = [] <-> en_children e' = None).
  { assert (A := r_length _ _ _ R'). assert (B := r_no_length _ _ _ R'). destruct (en_children e'); split; try discriminate; intros X; [rewrite X in A; discriminate|reflexivity|exact B]. }
  assert (KD : en_children e = None <-> en_children e' = None) by now rewrite <- ML, <- ML'.
  constructor.
  - exact NM.
  - exact LV.
  - intros T P P'. assert (T' : top_level e' = true) by congruence. unfold top_level in T, T'. destruct (en_in e) eqn:E; [discriminate|]. destruct (en_in e') eqn:E'; [discriminate|].
    destruct (r_id _ _ _ R E) as (_ & h & X & Y), (r_id _ _ _ R' E') as (_ & h' & X' & Y'). assert (h = h') by (apply SI; congruence). subst h'. destruct (X P) as [<- _], (X' P') as [<- _]. reflexivity.
  - intros T P P'. assert (T' : top_level e' = false) by congruence. unfold top_level in T, T'. destruct (en_in e) eqn:E; [|discriminate]. destruct (en_in e') eqn:E'; [|discriminate].
    destruct (r_header _ _ _ R ltac:(congruence)) as (_ & h & X & Y), (r_header _ _ _ R' ltac:(congruence)) as (_ & h' & X' & Y'). rewrite Y in Y'. destruct (di_header (en_info e)) as [z|], (di_header (en_info e')) as [z'|]; try discriminate; [|reflexivity].
    cbn [opt_list] in Y'. apply SI in Y'. subst h'. destruct (X z eq_refl (P z eq_refl)) as [<- _], (X' z' eq_refl (P' z' eq_refl)) as [<- _]. reflexivity.
  - assert (A := r_length _ _ _ R). assert (A' := r_length _ _ _ R'). apply decimal_inj. apply (app_inv_tail (txt " bytes")). apply SI. refine (eq_trans (eq_sym A) (eq_trans _ A')).
    destruct (en_children e), (en_children e'); try reflexivity; exfalso; [now assert (X := proj2 KD eq_refl)|now assert (X := proj1 KD eq_refl)].
  - apply cycle_text, SI. exact (eq_trans (eq_sym (r_cycle _ _ _ R)) (r_cycle _ _ _ R')).
  - destruct (r_senders _ _ _ R) as (t & A & B), (r_senders _ _ _ R') as (t' & A' & B'). exists t. split; [exact A|]. assert (t = t') by (apply SI; congruence). now subst t'.
  - assert (A := r_group _ _ _ R). assert (B := r_no_group _ _ _ R). assert (A' := r_group _ _ _ R'). assert (B' := r_no_group _ _ _ R'). destruct (di_j1939 (en_info e)), (di_j1939 (en_info e')); try reflexivity; exfalso.
    + destruct (A eq_refl) as (_ & X & _), (B' eq_refl) as (Y & _). rewrite X in Y. discriminate.
    + destruct (A' eq_refl) as (_ & X & _), (B eq_refl) as (Y & _). rewrite X in Y. discriminate.
  - intros T. assert (T' : top_level e' = true) by congruence. unfold top_level in T, T'. unfold full_name in NM. destruct (en_in e) eqn:E; [discriminate|]. destruct (en_in e') eqn:E'; [discriminate|].
    assert (C := r_children _ _ _ R). assert (C' := r_children _ _ _ R'). destruct (en_children e) as [l|], (en_children e') as [l'|]; [|exfalso; now assert (X := proj2 KD eq_refl)|exfalso; now assert (X := proj1 KD eq_refl)|reflexivity].
    assert (X : map (fun c => txt "  " ++ di_name (en_info e) ++ txt " :: " ++ c) l = map (fun c => txt "  " ++ di_name (en_info e) ++ txt " :: " ++ c) l').
    { rewrite <- (C l eq_refl). rewrite NM. exact (C' l' eq_refl). }
    clear - X. f_equal. revert l' X. induction l as [|a l IH]; intros [|a' l'] X; try discriminate; [reflexivity|]. cbn [map] in X. assert (X1 := f_equal (hd []) X). assert (X2 := f_equal (@tl chars) X). cbn [hd tl] in X1, X2. f_equal; [|now apply IH].
    apply app_inv_head in X1. apply app_inv_head in X1. now apply app_inv_head in X1.
  - intros N N'. split; [|split].
    + apply lines_inj. rewrite <- (r_layout _ _ _ R N). apply (r_layout _ _ _ R' N').
    + destruct (r_tree _ _ _ R N) as (t & A & B), (r_tree _ _ _ R' N') as (t' & A' & B'). exists t. split; [exact A|]. assert (t = t') by (apply lines_inj; congruence). now subst t'.
    + assert (A := r_tables _ _ _ R N). assert (A' := r_tables _ _ _ R' N'). rewrite A in A'. destruct (TreeDraw.signal_choices_string (di_core (en_info e))) as [|c l], (TreeDraw.signal_choices_string (di_core (en_info e'))) as [|c' l']; [reflexivity| | |now apply lines_inj].
      * symmetry in A'. now apply lines_some in A'.
      * now apply lines_some in A'.
Qed.
(** Databases whose dumps are the same text, also for terminals of different widths, have as many messages, in the same order, and
    they differ in nothing that is printed. *)
Theorem C81_same width width' db db1 db2 db3 out out' : (forall m, In m db -> tidy_message m) -> (forall m, In m db1 -> tidy_message m) ->
  dump_messages width db = Ok (out, db2) -> dump_messages width' db1 = Ok (out', db3) -> written out = written out' -> Forall2 (alike width width') (flat_map entries_of db) (flat_map entries_of db1).
Proof.
  intros T T' H H' E. destruct (C81_blocks width db out db2 T H) as (bl & P & F), (C81_blocks width' db1 out' db3 T' H') as (bl' & P' & F').
  rewrite E, P' in P. assert (X := f_equal (@tl (list chars)) P). cbn [tl] in X. apply app_inj_tail in X. destruct X as [X _]. subst bl'. clear - F F'. revert F'. generalize (flat_map entries_of db1). induction F as [|e b l bl R _ IH]; intros l' F'; inversion F'; subst; constructor; [|now apply IH].
  eapply same_block; eassumption.
Qed.

(** ** When it succeeds *)
(** The identifiers of J1939 messages have at most 29 bits, and what is drawn passes the checks and fits the terminal. *)
Definition numbered (i : dinfo) : Prop := di_j1939 i = true -> 0 <= m_frame_id (di_core i) < 2 ^ 29.
Definition drawable (width : Z) (i : dinfo) : Prop := numbered i /\ CodecSpec.strict_message (di_core i) /\ forall s, In s (m_signals (di_core i)) -> Prop_TreeDraw.fits width s.
Definition dumpable (width : Z) (m : dmessage) : Prop :=
  match dm_contained m with None => drawable width (dm_info m) | Some cs => numbered (dm_info m) /\ forall c, In c cs -> drawable width c end.
Lemma and_total i : exists t, format_and (di_senders (with_sender i)) = Ok t.
Proof. unfold with_sender. destruct (di_senders i) as [|a [|b l]] eqn:E; cbn [di_senders]; rewrite ?E; eexists; reflexivity. Qed.
Lemma j_total id : 0 <= id < 2 ^ 29 -> exists ls, j1939_lines id = Ok ls.
Proof.
  intros B. unfold j1939_lines. destruct (proj1 (Prop_J1939.C28_unpack id) B) as (u & U & F & _). rewrite U. cbn [bind]. unfold Prop_J1939.id_fields_ok in F.
  destruct (Prop_J1939.C29_pack (mkPgn (fi_reserved u) (fi_data_page u) (fi_pdu_format u) (if fi_pdu_format u <? 240 then 0 else fi_pdu_specific u))) as [P _]. destruct P as [P _].
  { unfold Prop_J1939.pgn_fields_ok. cbn [pg_reserved pg_data_page pg_pdu_format pg_pdu_specific]. destruct (Z.ltb_spec (fi_pdu_format u) 240); lia. }
  rewrite P. cbn [bind]. eexists. reflexivity.
Qed.
Lemma front_total p ct i : numbered i -> exists ls, front_lines p ct i = Ok ls.
Proof.
  intros N. unfold front_lines. destruct (and_total i) as (t & T). destruct (di_j1939 i) eqn:J; [destruct (j_total _ (N J)) as (j & ->)|]; cbn [bind]; rewrite T; cbn [bind]; eexists; reflexivity.
Qed.
Lemma simple_total width p i : drawable width i -> exists ls, dump_simple width p i = Ok ls.
Proof.
  intros (N & S & F). unfold dump_simple. destruct (front_total p false i N) as (f & ->). cbn [bind]. unfold body_lines. destruct (Prop_TreeDraw.C79_drawing _ width S F) as (g & ls & E & _). rewrite E. cbn [bind]. eexists. reflexivity.
Qed.
Lemma mapM_total {A B} (f : A -> result B) l : (forall x, In x l -> exists y, f x = Ok y) -> exists ys, mapM f l = Ok ys.
Proof.
  induction l as [|x l IH]; intros H; [now exists []|]. destruct (H x (or_introl eq_refl)) as (y & E). destruct IH as (ys & F); [intros; apply H; now right|]. cbn [mapM]. rewrite E. cbn [bind]. rewrite F. cbn [bind]. eexists. reflexivity.
Qed.
Theorem C81_succeeds width db : (forall m, In m db -> dumpable width m) -> exists out db', dump_messages width db = Ok (out, db').
Proof.
  intros H. unfold dump_messages. destruct (mapM_total (dump_message width) db) as (ls & E); [|rewrite E; cbn [bind]; eexists _, _; reflexivity]. intros m I. specialize (H m I). unfold dumpable in H. unfold dump_message. destruct (dm_contained m) as [cs|]; [|now apply simple_total].
  destruct H as [N H]. destruct (front_total [] true (dm_info m) N) as (f & ->). cbn [bind]. destruct (mapM_total (dump_simple width (dm_name m ++ txt " :: ")) cs) as (ch & E); [intros c J; now apply simple_total, H|]. rewrite E. cbn [bind]. eexists. reflexivity.
Qed.

(** ** Data identifiers *)
Record did_reported (d : chars * Did.did) (b : list chars) : Prop := {
  d_name : rests (txt "  Name:       ") b = [fst d];
  d_length : rests (txt "  Length:     ") b = [decimal (Did.did_length (snd d)) ++ txt " bytes"];
  d_names : rests (txt "    Name:      ") b = map (fun s => txt (s_name s)) (Did.did_datas (snd d));
  d_starts : rests (txt "    Start bit: ") b = map (fun s => decimal (s_start s)) (Did.did_datas (snd d));
  d_lengths : rests (txt "    Length:    ") b = map (fun s => decimal (s_length s)) (Did.did_datas (snd d)) }.
Definition did_tidy (d : chars * Did.did) : Prop := flat (fst d) = true /\ forall s, In s (Did.did_datas (snd d)) -> flat (txt (s_name s)) = true.
Definition did_banner : chars := repeat "="%char 35 ++ txt " Dids " ++ repeat "="%char 35.
Definition did_front (d : chars * Did.did) : list chars :=
  [[]; txt "  Name:       " ++ fst d; txt "  Length:     " ++ decimal (Did.did_length (snd d)) ++ txt " bytes"; txt "  Layout:"; []].
Lemma rests_app p a b : rests p (a ++ b) = rests p a ++ rests p b. Proof. apply flat_map_app. Qed.
Lemma datas_rests l : let ls := flat_map data_lines l in
  rests (txt "  Name:       ") ls = [] /\ rests (txt "  Length:     ") ls = [] /\ rests (txt "    Name:      ") ls = map (fun s => txt (s_name s)) l /\
  rests (txt "    Start bit: ") ls = map (fun s => decimal (s_start s)) l /\ rests (txt "    Length:    ") ls = map (fun s => decimal (s_length s)) l.
Proof.
  cbv zeta. induction l as [|s l (A & B & C & D & E)]; [repeat split|]. cbn [flat_map map]. rewrite !rests_app, A, B, C, D, E. repeat split.
Qed.
Lemma did_block d : did_tidy d -> exists b, did_lines d = b ++ [dashes] /\ all_flat b /\ no_dashes b /\ did_reported d b.
Proof.
  intros [F G]. exists (did_front d ++ flat_map data_lines (Did.did_datas (snd d)) ++ [[]]). split; [unfold did_lines; rewrite <- !app_assoc; reflexivity|]. split; [|split].
  - apply Forall_app. split; [repeat constructor; [now apply flat_lit|apply flat_lit; [reflexivity|apply flat_lit; [apply flat_decimal|reflexivity]]]|]. apply Forall_app. split; [|now repeat constructor]. revert G. generalize (Did.did_datas (snd d)). intros l G.
    induction l as [|s l IH]; [constructor|]. cbn [flat_map]. apply Forall_app. split; [|apply IH; intros; apply G; now right]. repeat constructor; (apply flat_lit; [reflexivity|]); [apply G; now left|apply flat_decimal|apply flat_decimal].
  - apply Forall_app. split; [repeat constructor|]. apply Forall_app. split; [|now repeat constructor]. generalize (Did.did_datas (snd d)). intros l. induction l as [|s l IH]; [constructor|]. cbn [flat_map]. apply Forall_app. split; [repeat constructor|exact IH].
  - destruct (datas_rests (Did.did_datas (snd d))) as (A & B & C & D & E). constructor; rewrite !rests_app; [rewrite A|rewrite B|rewrite C|rewrite D|rewrite E]; cbn [rests flat_map after]; rewrite ?app_nil_r; reflexivity.
Qed.
Theorem C81_dids l : (forall d, In d l -> did_tidy d) -> exists blocks, pieces (lines_of (written (dump_dids l))) = [did_banner; []] :: blocks ++ [[[]]] /\ Forall2 did_reported l blocks.
Proof.
  intros T. assert (X : exists bl, flat_map did_lines l = closed bl /\ Forall2 (fun d b => all_flat b /\ no_dashes b /\ did_reported d b) l bl).
  { induction l as [|d l IH]; [exists []; split; [reflexivity|constructor]|]. destruct IH as (bl & E & F); [intros; apply T; now right|]. destruct (did_block d (T d (or_introl eq_refl))) as (b & EB & B). exists (b :: bl). split; [|now constructor]. cbn [flat_map]. now rewrite EB, E. }
  destruct X as (bl & E & F). exists bl. assert (AF : Forall (fun b => all_flat b /\ no_dashes b) bl) by (clear - F; induction F as [|e b es bl (A & B & _) _ IH]; constructor; auto).
  split; [|eapply Forall2_weaken; [|exact F]; now intros e b (_ & _ & R)]. unfold dump_dids. rewrite E.
  change ([txt "=================================== Dids ==================================="; []; ruler] ++ closed bl) with ([did_banner; []] ++ dashes :: closed bl). rewrite split_written.
  - rewrite <- app_assoc. change ((dashes :: closed bl) ++ [[]]) with (dashes :: closed bl ++ [[]]). rewrite pieces_cut by now repeat constructor. rewrite pieces_closed; [reflexivity|]. eapply Forall_impl; [|exact AF]. now intros b [].
  - constructor; [reflexivity|]. constructor; [reflexivity|]. constructor; [reflexivity|]. clear - AF. unfold closed. induction AF as [|b bl [A _] _ IH]; [constructor|]. cbn [flat_map]. apply Forall_app. split; [|exact IH]. apply Forall_app. split; [exact A|now repeat constructor].
Qed.

(** ** Cases that meet the hypotheses *)
Definition tree := Prop_TreeDraw.tree_msg.
Definition at_id (id : Z) : message := mkMessage id (m_extended tree) "Tree" (m_length tree) (m_unused tree) (m_signals tree) (m_strict tree) (m_codec tree) (m_tree tree).
Definition ex_alone : dmessage := mkDMsg (mkDInfo tree [] (Some 100) None false) None.
Definition ex_part : dinfo := mkDInfo tree [txt "Roof"; txt "Door"; txt "Seat"] None (Some 10) false.
Definition ex_box : dmessage := mkDMsg (mkDInfo tree [txt "Roof"] None None false) (Some [ex_part; ex_part]).
Definition ex_group : dmessage := mkDMsg (mkDInfo (at_id 217056256) [txt "Roof"; txt "Door"] None None true) None.
Lemma tree_tidy m : m_signals m = m_signals tree -> flat (txt (m_name m)) = true -> forall s c h j, all_flat s -> tidy (mkDInfo m s c h j).
Proof.
  intros E F s c h j A. assert (S : m_signals tree = Prop_TreeDraw.tree_sigs) by (vm_compute; reflexivity). unfold tidy, words, texts_fine. cbn [di_name di_core di_senders]. rewrite E, S. split; [exact F|]. split; [exact A|]. split.
  - intros x H. repeat (destruct H as [<-|H]; [split; [discriminate|repeat constructor]|]). contradiction.
  - intros x ch p H. destruct H as [<-|H].
    + intros X I. vm_compute in X. injection X as <-. repeat (destruct I as [<-|I]; [split; [repeat constructor|split; [reflexivity|discriminate]]|]). contradiction.
    + repeat (destruct H as [<-|H]; [vm_compute; discriminate|]). contradiction.
Qed.
Definition shown_lines (l : list string) (r : result (list chars * list dmessage)) : bool :=
  match r with Ok (out, _) => forallb (fun x => existsb (line_is (txt x)) out) l | Err _ => false end.
Example C81_hypotheses : (forall m, In m [ex_alone; ex_box; ex_group] -> tidy_message m) /\ (forall m, In m [ex_alone; ex_box] -> dumpable 80 m) /\
  last_named [ex_alone; ex_group] (txt "Tree") ex_group /\ In (txt "Tree") (map dm_name [ex_alone; ex_group]) /\ ~ In (txt "Gone") (map dm_name [ex_alone; ex_group]) /\
  shown_lines ["  Id:             0x123"; "  Cycle time:     100 ms"; "  Senders:        -"; "  Maximum length: 8 bytes"; "      Tree :: Tree"; "  Name:           Tree :: Tree"; "  Header id:      0x00000a"; "  Senders:        Roof, Door and Seat";
               "      Priority:       3"; "      PGN:            0x0f004"; "      Source:         0x00"; "      Destination:    All"; "      Format:         PDU 2"; "       |   +-- Bad (7)"; "        7 Bad"]
    (dump_messages 80 [ex_alone; ex_box; ex_group]) = true.
Proof.
  split; [|split; [|split; [|split; [now left|split; [cbn; intuition discriminate|vm_compute; reflexivity]]]]].
  - assert (P : tidy ex_part) by (apply tree_tidy; [reflexivity|reflexivity|repeat constructor]). intros m [<-|[<-|[<-|[]]]]; (split; [apply tree_tidy; [reflexivity|reflexivity|repeat constructor]|]); try discriminate. intros cs c [= <-] [<-|[<-|[]]]; exact P.
  - destruct Prop_TreeDraw.C79_hypotheses as (A & B & _). intros m [<-|[<-|[]]]; cbn; unfold drawable, numbered; cbn [di_j1939 di_core]; [now split|]. split; [discriminate|]. intros c [<-|[<-|[]]]; now split.
  - exists [ex_alone], []. split; [reflexivity|]. split; [reflexivity|intros []].
Qed.
Lemma ex_dumps : exists out db', dump_messages 80 [ex_alone; ex_box; ex_group] = Ok (out, db').
Proof. destruct (dump_messages 80 [ex_alone; ex_box; ex_group]) as [[out db']|] eqn:E; [now exists out, db'|]. exfalso. destruct C81_hypotheses as (_ & _ & _ & _ & _ & H). rewrite E in H. discriminate. Qed.
(** The block of the J1939 message has the parts of its identifier. *)
Example C81_identifier_hypotheses : exists b, group_fields 217056256 b.
Proof.
  destruct C81_hypotheses as (T & _). destruct ex_dumps as (out & db' & D). destruct (C81_blocks 80 _ out db' T D) as (bl & _ & F). change (flat_map entries_of [ex_alone; ex_box; ex_group]) with ([mkEntry None None (dm_info ex_alone)] ++ entries_of ex_box ++ [mkEntry None None (dm_info ex_group)]) in F.
  apply Forall2_app_inv_l in F. destruct F as (? & ? & _ & F & _). apply Forall2_app_inv_l in F. destruct F as (? & ? & _ & F & _). inversion F as [|? b ? ? R _ E1 E2]. exists b. exact (r_group _ _ _ R eq_refl).
Qed.
(** For terminals of different widths the same is printed. *)
Example C81_same_hypotheses : exists out db' out' db'', dump_messages 80 [ex_alone] = Ok (out, db') /\ dump_messages 40 [ex_alone] = Ok (out', db'') /\ written out = written out'.
Proof. eexists _, _, _, _. split; [vm_compute; reflexivity|]. split; vm_compute; reflexivity. Qed.
Definition ex_did : chars * Did.did := (txt "Voltage", Did.mkDid 8 (m_signals tree) (Formats.mkFormats [] [] 0)).
Example C81_dids_hypotheses : (forall d, In d [ex_did; ex_did] -> did_tidy d) /\ In (txt "    Start bit: 48") (dump_dids [ex_did]).
Proof.
  split; [|vm_compute; do 25 right; now left]. assert (S : m_signals tree = Prop_TreeDraw.tree_sigs) by (vm_compute; reflexivity).
  assert (X : did_tidy ex_did) by (split; [reflexivity|]; cbn [snd ex_did Did.did_datas]; rewrite S; intros s H; repeat (destruct H as [<-|H]; [reflexivity|]); contradiction). now intros d [<-|[<-|[]]].
Qed.

(** ** What the command does not do *)
(** Dumping changes the database: a message without senders has one after it. *)
Theorem C81_unchanged_refuted : exists db out db', dump_messages 80 db = Ok (out, db') /\ db' <> db /\ (exists m, In m db /\ di_senders (dm_info m) = []) /\ forall m, In m db' -> di_senders (dm_info m) = [txt "-"].
Proof.
  exists [ex_alone]. destruct (C81_succeeds 80 [ex_alone]) as (out & db' & E). { intros m [<-|[]]. apply (proj1 (proj2 C81_hypotheses)). now left. }
  exists out, db'. split; [exact E|]. destruct (C81_again _ _ _ _ E) as [D _]. inversion D as [|? m' ? r DM DR]; subst. inversion DR; subst. destruct DM as [(_ & _ & _ & _ & _ & X) _]. specialize (X eq_refl). split; [|split].
  - intros Y. assert (YM : m' = ex_alone) by exact (f_equal (hd ex_alone) Y). rewrite YM in X. assert (Z : [] = [txt "-"]) by exact X. discriminate Z.
  - exists ex_alone. split; [now left|reflexivity].
  - intros m [<-|[]]. exact X.
Qed.
(** A message without senders and one that is sent by "-" cannot be told apart. *)
Theorem C81_dash_refuted : exists m m' out d d', di_senders (dm_info m) = [] /\ di_senders (dm_info m') = [txt "-"] /\ dump_messages 80 [m] = Ok (out, d) /\ dump_messages 80 [m'] = Ok (out, d').
Proof.
  exists ex_alone, (after_dump ex_alone). destruct (C81_succeeds 80 [ex_alone]) as (out & db' & E). { intros m [<-|[]]. apply (proj1 (proj2 C81_hypotheses)). now left. }
  exists out, db', db'. split; [reflexivity|]. split; [reflexivity|]. split; [exact E|]. assert (X : db' = [after_dump ex_alone]).
  { unfold dump_messages in E. apply bind_ok in E. destruct E as (ls & _ & E). assert (OI : forall a b : list chars * list dmessage, Ok a = Ok b -> a = b) by (intros x y Z; now injection Z). apply OI in E. exact (eq_sym (f_equal snd E)). }
  rewrite <- X. apply (C81_again _ _ _ _ E).
Qed.
(** On a terminal that reports no columns, or less than three, a message with signals cannot be dumped. *)
Theorem C81_narrow_refuted : exists m, (forall w, w <= 2 -> dump_messages w [m] = Err ValueError) /\ dumpable 80 m.
Proof.
  exists ex_alone. split; [|apply (proj1 (proj2 C81_hypotheses)); now left]. intros w W. unfold dump_messages. cbn [mapM]. assert (X : dump_message w ex_alone = Err ValueError).
  { unfold dump_message. cbn [dm_contained ex_alone]. unfold dump_simple. destruct (front_total [] false (dm_info ex_alone) ltac:(discriminate)) as (f & F). change (dm_info (mkDMsg (mkDInfo tree [] (Some 100) None false) None)) with (dm_info ex_alone). rewrite F. cbn [bind]. unfold body_lines. cbn [di_core dm_info ex_alone].
    assert (Y : TreeDraw.signal_tree_string tree w = Err ValueError); [|now rewrite Y]. unfold TreeDraw.signal_tree_string, TreeDraw.tree_lines. assert (L : TreeDraw.level_lines (m_signals tree) w (m_tree tree) = Err ValueError); [|now rewrite L].
    assert (WW : forall t, TreeDraw.wrap_word (w - 2) t = Err ValueError) by (intros t; unfold TreeDraw.wrap_word; destruct (Z.leb_spec (w - 2) 0); [reflexivity|lia]).
    let t := eval vm_compute in (m_tree tree) in change (m_tree tree) with t. cbn [TreeDraw.level_lines]. unfold TreeDraw.format_signal_line. rewrite !WW. reflexivity. }
  now rewrite X.
Qed.
