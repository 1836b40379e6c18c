(** Prop_CNode: property C77, how the header, the source and the fuzzer of the C generator fit together, for all nodes or
    for one of them. *)
From Coq Require Import Ascii Permutation.
From Verif Require Import Base PyNum Conversion Signal Message DictLemmas CodecSpec CSource CNames CNode Prop_Invert.
Local Open Scope string_scope.
Local Open Scope Z_scope.
Local Open Scope list_scope.

(** ** What a node needs *)
Definition sent_by (node : option string) (m : gmessage) : Prop := match node with None => True | Some n => In n (g_senders m) end.
Definition received_by (node : option string) (s : signal * list string) : Prop := match node with None => True | Some n => In n (snd s) end.
Definition some_received (node : option string) (m : gmessage) : Prop := node = None \/ exists s, In s (g_signals m) /\ received_by node s.
(** The C type of a signal: float or double, or the smallest integer type that has enough bits *)
Definition widths : list (Z * string) := [(8, "8"); (16, "16"); (32, "32"); (64, "64")].
Definition c_type (s : signal) (t : string) : Prop :=
  conv_is_float (s_conv s) = true /\ s_length s = 32 /\ t = "float" \/
  conv_is_float (s_conv s) = true /\ s_length s <> 32 /\ t = "double" \/
  conv_is_float (s_conv s) = false /\ exists w d, In (w, d) widths /\ (s_length s <= w \/ w = 64) /\ (forall w' d', In (w', d') widths -> w' < w -> w' < s_length s) /\
    t = ((if s_signed s then "int" else "uint") ++ d ++ "_t")%string.
Section Spec.
  Context (database : string) (floating bit_fields use_float : bool) (node : option string).
  Definition full (m : gmessage) (what : string) : string := (database ++ "_" ++ snake (g_name m) ++ "_" ++ what)%string.
  (** The functions of a message: pack for the sender, unpack for receivers, init for both *)
  Definition message_function (m : gmessage) (p : proto) : Prop :=
    sent_by node m /\ p = mkProto "int" (full m "pack") ["uint8_t *"; ("const struct " ++ full m "t" ++ " *")%string; "size_t"] \/
    some_received node m /\ p = mkProto "int" (full m "unpack") [("struct " ++ full m "t" ++ " *")%string; "const uint8_t *"; "size_t"] \/
    (sent_by node m \/ some_received node m) /\ p = mkProto "int" (full m "init") [("struct " ++ full m "t" ++ " *")%string].
  (** The functions of a signal *)
  Definition signal_function (f : signal -> string) (m : gmessage) (p : proto) : Prop :=
    exists s t, In s (g_signals m) /\ c_type (fst s) t /\ let name what := full m (snake (s_name (fst s)) ++ "_" ++ what) in
      (floating = true /\ sent_by node m /\ p = mkProto t (name "encode") [f (fst s)] \/
       floating = true /\ received_by node s /\ p = mkProto (f (fst s)) (name "decode") [t] \/
       (sent_by node m \/ received_by node s) /\ (p = mkProto "bool" (name "is_in_range") [t] \/ p = mkProto "bool" (name "is_in_phys_range") [f (fst s)])).
  Definition declared_float (s : signal) : string := if use_float then "float" else "double".
  Definition defined_float (s : signal) : string := if use_float && negb (conv_is_float (s_conv s) && negb (s_length s =? 32)) then "float" else "double".
End Spec.
(** A function mentions a structure *)
Definition mentions (p : proto) (tag : string) : Prop := In ("struct " ++ tag ++ " *")%string (p_params p) \/ In ("const struct " ++ tag ++ " *")%string (p_params p).
(** A statement calls a helper, maybe in a case of a switch *)
Inductive calls (pack : bool) (d : dir) (w : Z) : cstmt -> Prop :=
| calls_pack i local n shift mask : pack = true -> calls pack d w (CPackOr i d w local n shift mask)
| calls_unpack local first n i shift mask : pack = false -> calls pack d w (CUnpack local first n d w i shift mask)
| calls_case n v signed cases id body st : In (id, body) cases -> In st body -> calls pack d w st -> calls pack d w (CSwitch n v signed cases).

(** ** Proofs *)
Lemma str_in_iff x l : str_in x l = true <-> In x l.
Proof. unfold str_in. rewrite existsb_exists. split; [intros (y & I & E); apply String.eqb_eq in E; now subst|intros I; exists x; split; [exact I|apply String.eqb_refl]]. Qed.
Lemma sends_iff node m : sends node m = true <-> sent_by node m.
Proof. destruct node; [apply str_in_iff|cbn; tauto]. Qed.
Lemma receives_iff node s : receives node s = true <-> received_by node s.
Proof. destruct node; [apply str_in_iff|cbn; tauto]. Qed.
Lemma receiver_iff node m : is_receiver node m = true <-> some_received node m.
Proof.
  unfold is_receiver, some_received. destruct node as [n|]; [|split; [now left|trivial]]. cbn [orb]. rewrite existsb_exists. split.
  - intros (s & I & R). right. exists s. split; [exact I|now apply receives_iff].
  - intros [E|(s & I & R)]; [discriminate|]. exists s. split; [exact I|now apply receives_iff].
Qed.
Lemma involved_iff node m : involved node m = true <-> sent_by node m \/ some_received node m.
Proof.
  unfold involved. rewrite Bool.orb_true_iff, sends_iff. unfold some_received. destruct node as [n|]; [|cbn; tauto]. rewrite existsb_exists. split; (intros [S|R]; [now left|right]).
  - right. destruct R as (s & I & R). exists s. split; [exact I|now apply receives_iff].
  - destruct R as [E|(s & I & R)]; [discriminate|]. exists s. split; [exact I|now apply receives_iff].
Qed.
Lemma type_iff s t : c_type s t <-> t = type_name s.
Proof.
  unfold c_type, type_name, is_float. destruct (conv_is_float (s_conv s)).
  - destruct (Z.eqb_spec (s_length s) 32) as [E|E]; split; intuition (try congruence; try discriminate).
  - split.
    + intros [(X & _)|[(X & _)|(_ & w & d & I & L & M & ->)]]; try discriminate. unfold type_digits.
      assert (D : (if s_length s <=? 8 then "8" else if s_length s <=? 16 then "16" else if s_length s <=? 32 then "32" else "64") = d).
      { pose proof (M 8 "8" ltac:(cbn; auto)). pose proof (M 16 "16" ltac:(cbn; auto)). pose proof (M 32 "32" ltac:(cbn; auto)).
        destruct I as [[= <- <-]|[[= <- <-]|[[= <- <-]|[[= <- <-]|[]]]]]; destruct (Z.leb_spec (s_length s) 8); destruct (Z.leb_spec (s_length s) 16); destruct (Z.leb_spec (s_length s) 32); try reflexivity; exfalso; lia. }
      rewrite D. destruct (s_signed s); reflexivity.
    + intros ->. right. right. split; [reflexivity|]. unfold type_digits.
      assert (X : exists w d, In (w, d) widths /\ (s_length s <= w \/ w = 64) /\ (forall w' d', In (w', d') widths -> w' < w -> w' < s_length s) /\ (if s_length s <=? 8 then "8" else if s_length s <=? 16 then "16" else if s_length s <=? 32 then "32" else "64") = d).
      { destruct (Z.leb_spec (s_length s) 8) as [A|A]; [exists 8, "8"|destruct (Z.leb_spec (s_length s) 16) as [B|B]; [exists 16, "16"|destruct (Z.leb_spec (s_length s) 32) as [C|C]; [exists 32, "32"|exists 64, "64"]]];
          (split; [cbn; auto|]); (split; [(left; lia) || now right|]); (split; [|reflexivity]); intros w' d' I LT; destruct I as [[= <- <-]|[[= <- <-]|[[= <- <-]|[[= <- <-]|[]]]]]; lia. }
      destruct X as (w & d & I & L & M & ->). exists w, d. split; [exact I|]. split; [exact L|]. split; [exact M|]. destruct (s_signed s); reflexivity.
Qed.
Lemma double_iff s : String.eqb (type_name s) "double" = conv_is_float (s_conv s) && negb (s_length s =? 32).
Proof.
  unfold type_name, is_float. destruct (conv_is_float (s_conv s)); [now destruct (s_length s =? 32)|]. cbn [andb]. unfold type_digits.
  destruct (s_signed s), (s_length s <=? 8), (s_length s <=? 16), (s_length s <=? 32); reflexivity.
Qed.
Lemma str_app_assoc (a b c : string) : (a ++ (b ++ c) = (a ++ b) ++ c)%string.
Proof. induction a as [|x a IH]; cbn; [reflexivity|now rewrite IH]. Qed.
Section Files.
  Context (database : string) (floating bit_fields use_float : bool) (node : option string).
  Notation full := (full database).
  Lemma prefix_full m what : (prefix database m ++ "_" ++ what = full m what)%string.
  Proof. unfold prefix, full, snaked. now rewrite <- !str_app_assoc. Qed.
  Lemma signal_full m s what : of_signal database m s what = full m (snake (s_name s) ++ "_" ++ what).
  Proof. unfold of_signal. rewrite prefix_full. reflexivity. Qed.
  Lemma signal_part_iff (f : signal -> string) m p :
    In p (flat_map (fun s => let own := (if floating then
                  (if sends node m then [encode_proto database m (fst s) (f (fst s))] else []) ++
                  (if match node with None => true | Some _ => false end || receives node s then [decode_proto database m (fst s) (f (fst s))] else [])
                else []) in
      if sends node m || receives node s then own ++ [range_proto database m (fst s); phys_proto database m (fst s) (f (fst s))] else []) (g_signals m)) <->
    signal_function database floating node f m p.
  Proof.
    unfold signal_function. rewrite in_flat_map. split.
    - intros (s & I & H). exists s, (type_name (fst s)). split; [exact I|]. split; [now apply type_iff|]. cbv zeta. rewrite <- !signal_full.
      destruct (sends node m || receives node s) eqn:E; [|destruct H]. rewrite Bool.orb_true_iff, sends_iff, receives_iff in E. apply in_app_iff in H. destruct H as [H|[<-|[<-|[]]]].
      + destruct floating; [|destruct H]. apply in_app_iff in H. destruct H as [H|H].
        * destruct (sends node m) eqn:S; [|destruct H]. destruct H as [<-|[]]. left. split; [reflexivity|]. split; [now apply sends_iff|reflexivity].
        * destruct (match node with None => true | Some _ => false end || receives node s) eqn:R; [|destruct H]. destruct H as [<-|[]]. right. left. split; [reflexivity|]. split; [|reflexivity].
          apply receives_iff. destruct node; [exact R|reflexivity].
      + right. right. split; [exact E|now left].
      + right. right. split; [exact E|now right].
    - intros (s & t & I & T & H). apply type_iff in T. subst t. exists s. split; [exact I|]. cbv zeta in H. rewrite <- !signal_full in H.
      assert (E : sends node m || receives node s = true) by (rewrite Bool.orb_true_iff, sends_iff, receives_iff; tauto). cbv zeta. rewrite E.
      apply in_app_iff. destruct H as [(-> & S & ->)|[(-> & R & ->)|(_ & [-> | ->])]].
      + left. apply in_app_iff. left. rewrite (proj2 (sends_iff _ _) S). now left.
      + left. apply in_app_iff. right. rewrite (proj2 (receives_iff _ _) R), Bool.orb_true_r. now left.
      + right. now left.
      + right. right. now left.
  Qed.
  Lemma message_part_iff m p :
    In p ((if sends node m then [pack_proto database m] else []) ++ (if is_receiver node m then [unpack_proto database m] else []) ++ (if sends node m || is_receiver node m then [init_proto database m] else [])) <->
    message_function database node m p.
  Proof.
    unfold message_function, pack_proto, unpack_proto, init_proto, struct_tag. rewrite <- (prefix_full m "pack"), <- (prefix_full m "unpack"), <- (prefix_full m "init"), <- (prefix_full m "t"), <- sends_iff, <- receiver_iff. change (prefix database m ++ "_" ++ "t")%string with (prefix database m ++ "_t")%string.
    change (prefix database m ++ "_" ++ "pack")%string with (prefix database m ++ "_pack")%string. change (prefix database m ++ "_" ++ "unpack")%string with (prefix database m ++ "_unpack")%string. change (prefix database m ++ "_" ++ "init")%string with (prefix database m ++ "_init")%string.
    rewrite !in_app_iff. destruct (sends node m), (is_receiver node m); cbn; intuition (try congruence; auto).
  Qed.
  Definition header_functions (ms : list gmessage) : list proto := h_functions (fst (fst (generate database floating bit_fields use_float node ms))).
  Definition source_functions (ms : list gmessage) : list proto := c_functions (snd (fst (generate database floating bit_fields use_float node ms))).
  Lemma declare_iff m p : In p (declare database floating use_float node m) <->
    message_function database node m p \/ signal_function database floating node (declared_float use_float) m p.
  Proof.
    unfold declare. rewrite !app_assoc, in_app_iff, <- app_assoc, message_part_iff, <- (signal_part_iff (declared_float use_float)). reflexivity.
  Qed.
  (** The header declares exactly what the node needs *)
  Theorem C77_declared ms p : In p (header_functions ms) <->
    exists m, In m ms /\ (message_function database node m p \/ signal_function database floating node (declared_float use_float) m p).
  Proof. unfold header_functions, generate. cbn [fst h_functions]. rewrite in_flat_map. split; intros (m & I & H); exists m; (split; [exact I|]); now apply declare_iff. Qed.
  Lemma defined_type s : float_type (own_float use_float s) = defined_float use_float s.
  Proof. unfold own_float, defined_float, float_type. rewrite double_iff. destruct use_float; [|reflexivity]. cbn [andb]. now destruct (conv_is_float (s_conv s) && negb (s_length s =? 32)). Qed.
  Lemma define_signals m : flat_map (define_signal database floating use_float node m) (g_signals m) =
    flat_map (fun s => let own := (if floating then
                  (if sends node m then [encode_proto database m (fst s) (defined_float use_float (fst s))] else []) ++
                  (if match node with None => true | Some _ => false end || receives node s then [decode_proto database m (fst s) (defined_float use_float (fst s))] else [])
                else []) in
      if sends node m || receives node s then own ++ [range_proto database m (fst s); phys_proto database m (fst s) (defined_float use_float (fst s))] else []) (g_signals m).
  Proof. apply flat_map_ext. intros s. unfold define_signal. now rewrite defined_type. Qed.
  (** The source defines the same, but for messages without data always pack and unpack and never init *)
  Theorem C77_defined ms p : In p (source_functions ms) <->
    exists m, In m ms /\ (0 < g_length m /\ message_function database node m p \/
      ~ 0 < g_length m /\ (p = mkProto "int" (full m "pack") ["uint8_t *"; ("const struct " ++ full m "t" ++ " *")%string; "size_t"] \/
                           p = mkProto "int" (full m "unpack") [("struct " ++ full m "t" ++ " *")%string; "const uint8_t *"; "size_t"]) \/
      signal_function database floating node (defined_float use_float) m p).
  Proof.
    unfold source_functions, generate. cbn [fst snd c_functions]. rewrite in_flat_map.
    assert (G : forall m, In p (define database floating use_float node m) <-> (0 < g_length m /\ message_function database node m p \/
      ~ 0 < g_length m /\ (p = mkProto "int" (full m "pack") ["uint8_t *"; ("const struct " ++ full m "t" ++ " *")%string; "size_t"] \/
                           p = mkProto "int" (full m "unpack") [("struct " ++ full m "t" ++ " *")%string; "const uint8_t *"; "size_t"]) \/
      signal_function database floating node (defined_float use_float) m p)).
    { intros m. unfold define. rewrite define_signals, in_app_iff, signal_part_iff. destruct (Z.ltb_spec 0 (g_length m)) as [L|L].
      - rewrite message_part_iff. split; [intros [H|H]; auto|]. intros [(_ & H)|[(N & _)|H]]; [now left|contradiction|now right].
      - rewrite <- (prefix_full m "pack"), <- (prefix_full m "unpack"), <- (prefix_full m "t"). split.
        + intros [[<-|[<-|[]]]|H]; [right; left; split; [lia|now left]|right; left; split; [lia|now right]|now right; right].
        + intros [(N & _)|[(_ & [-> | ->])|H]]; [lia|left; now left|left; right; now left|now right]. }
    split; intros (m & I & H); exists m; (split; [exact I|]); now apply G.
  Qed.
  (** Without messages that have no data, and without doubles if use_float is set, the two agree, also in their order *)
  Theorem C77_agree ms : (forall m, In m ms -> 0 < g_length m) ->
    (use_float = true -> forall m s, In m ms -> In s (g_signals m) -> sent_by node m \/ received_by node s -> conv_is_float (s_conv (fst s)) = true -> s_length (fst s) = 32) ->
    source_functions ms = header_functions ms.
  Proof.
    intros L F. unfold source_functions, header_functions, generate. cbn [fst snd c_functions h_functions]. induction ms as [|m ms IH]; [reflexivity|]. cbn [flat_map]. rewrite IH; [|intros; apply L; now right|intros U; intros; apply (F U m0); [now right|assumption..]].
    f_equal. unfold define, declare. pose proof (L m (or_introl eq_refl)) as LM. destruct (Z.ltb_spec 0 (g_length m)) as [_|]; [|lia]. rewrite <- !app_assoc. do 3 f_equal.
    assert (FM : forall s, In s (g_signals m) -> use_float = true -> sent_by node m \/ received_by node s -> conv_is_float (s_conv (fst s)) = true -> s_length (fst s) = 32) by (intros s I U; apply (F U m s (or_introl eq_refl) I)).
    clear - FM. induction (g_signals m) as [|s l IHs]; [reflexivity|]. cbn [flat_map]. rewrite IHs by (intros x X; apply FM; now right). f_equal.
    unfold define_signal, declare_signal. destruct (sends node m || receives node s) eqn:E; [|reflexivity].
    assert (Q : float_type (own_float use_float (fst s)) = float_type use_float).
    { unfold own_float. rewrite double_iff. destruct use_float; [|reflexivity]. cbn [andb]. rewrite Bool.orb_true_iff, sends_iff, receives_iff in E. destruct (conv_is_float (s_conv (fst s))) eqn:C; [|reflexivity]. rewrite (FM s (or_introl eq_refl) eq_refl E C). reflexivity. }
    rewrite Q. reflexivity.
  Qed.
End Files.

(** ** Structures *)
Lemma string_app_inj a b c : (a ++ c = b ++ c)%string -> a = b.
Proof.
  assert (L : forall x y, list_ascii_of_string (x ++ y) = list_ascii_of_string x ++ list_ascii_of_string y) by (intros x y; induction x as [|h x IH]; cbn; [reflexivity|now rewrite IH]).
  intros H. rewrite <- (string_of_list_ascii_of_string a), <- (string_of_list_ascii_of_string b). f_equal. apply (app_inv_tail (list_ascii_of_string c)). now rewrite <- !L, H.
Qed.
Lemma type_first s t : c_type s t -> forall r, t <> ("struct " ++ r)%string /\ t <> ("const struct " ++ r)%string.
Proof.
  intros T r. apply type_iff in T. subst t. unfold type_name, type_digits. destruct (is_float s), (s_length s =? 32), (s_signed s), (s_length s <=? 8), (s_length s <=? 16), (s_length s <=? 32); cbn; split; discriminate.
Qed.
Section Structs.
  Context (database : string) (floating bit_fields use_float : bool) (node : option string).
  Notation full := (full database).
  Definition header_structs (ms : list gmessage) : list (string * list (string * string * option Z)) := h_structs (fst (fst (generate database floating bit_fields use_float node ms))).
  (** Which structures there are and their members: type, name and width of the bit field *)
  Theorem C77_structs ms tag members : In (tag, members) (header_structs ms) <->
    exists m, In m ms /\ (sent_by node m \/ some_received node m) /\ tag = full m "t" /\
      (g_signals m = [] /\ members = [("uint8_t", "dummy", None)] \/
       g_signals m <> [] /\ Forall2 (fun s mb => exists t, c_type (fst s) t /\
         mb = (t, snake (s_name (fst s)), if bit_fields && negb (conv_is_float (s_conv (fst s))) then Some (s_length (fst s)) else None)) (g_signals m) members).
  Proof.
    unfold header_structs, generate. cbn [fst h_structs]. unfold structs. rewrite in_map_iff.
    assert (G : forall m, (struct_of database bit_fields m = (tag, members)) <-> tag = full m "t" /\
      (g_signals m = [] /\ members = [("uint8_t", "dummy", None)] \/
       g_signals m <> [] /\ Forall2 (fun s mb => exists t, c_type (fst s) t /\
         mb = (t, snake (s_name (fst s)), if bit_fields && negb (conv_is_float (s_conv (fst s))) then Some (s_length (fst s)) else None)) (g_signals m) members)).
    { intros m. unfold struct_of, struct_tag. rewrite <- (prefix_full database m "t"). change (prefix database m ++ "_" ++ "t")%string with (prefix database m ++ "_t")%string.
      assert (M : forall l mbs, Forall2 (fun (s : signal * list string) mb => exists t, c_type (fst s) t /\
         mb = (t, snake (s_name (fst s)), if bit_fields && negb (conv_is_float (s_conv (fst s))) then Some (s_length (fst s)) else None)) l mbs <-> map (fun s => member_of bit_fields (fst s)) l = mbs).
      { assert (E : forall s, member_of bit_fields s = (type_name s, snake (s_name s), if bit_fields && negb (conv_is_float (s_conv s)) then Some (s_length s) else None)).
        { intros s. unfold member_of, is_float, member. now destruct bit_fields, (conv_is_float (s_conv s)). }
        induction l as [|s l IH]; intros mbs; split; intros H.
        - now inversion H.
        - subst. constructor.
        - inversion H as [|? mb ? mbs' (t & T & ->) F]; subst. cbn [map]. rewrite (proj1 (IH mbs') F), E. apply type_iff in T. now subst t.
        - subst mbs. cbn [map]. constructor; [exists (type_name (fst s)); split; [now apply type_iff|apply E]|now apply IH]. }
      destruct (g_signals m) as [|s l] eqn:Q.
      - cbn [map]. split; [intros [= <- <-]; split; [reflexivity|now left]|]. intros (-> & [(_ & ->)|(N & _)]); [reflexivity|now elim N].
      - rewrite M. cbn [map]. split; [intros [= <- <-]; split; [reflexivity|right; split; [discriminate|reflexivity]]|]. intros (-> & [([=] & _)|(_ & <-)]). reflexivity. }
    split.
    - intros (m & E & I). apply filter_In in I. destruct I as (I & V). exists m. split; [exact I|]. split; [now apply involved_iff|now apply G].
    - intros (m & I & V & H). exists m. split; [now apply G|]. apply filter_In. split; [exact I|now apply involved_iff].
  Qed.
  (** A bit field is not wider than its type *)
  Theorem C77_bit_fields ms tag members t n w : (forall m s, In m ms -> In s (g_signals m) -> s_length (fst s) <= 64) ->
    In (tag, members) (header_structs ms) -> In (t, n, Some w) members -> exists b d, In (b, d) widths /\ (t = ("int" ++ d ++ "_t")%string \/ t = ("uint" ++ d ++ "_t")%string) /\ w <= b.
  Proof.
    intros L H I. apply C77_structs in H. destruct H as (m & M & _ & _ & [(_ & ->)|(_ & F)]); [destruct I as [[=]|[]]|].
    assert (X : exists s, In s (g_signals m) /\ exists t', c_type (fst s) t' /\ (t, n, Some w) = (t', snake (s_name (fst s)), if bit_fields && negb (conv_is_float (s_conv (fst s))) then Some (s_length (fst s)) else None)).
    { clear - F I. induction F as [|s mb l mbs H F IH]; [destruct I|]. destruct I as [->|I]; [exists s; split; [now left|exact H]|]. destruct (IH I) as (x & X & Y). exists x. split; [now right|exact Y]. }
    destruct X as (s & S & t' & T & E). injection E as -> -> E. specialize (L m s M S). destruct (bit_fields && negb (conv_is_float (s_conv (fst s)))) eqn:B; [|discriminate]. injection E as ->.
    apply Bool.andb_true_iff in B. destruct B as (_ & B). destruct T as [(C & _)|[(C & _)|(_ & b & d & J & LE & _ & ->)]]; [rewrite C in B; discriminate..|].
    exists b, d. split; [exact J|]. split; [destruct (s_signed (fst s)); auto|]. destruct LE as [LE| ->]; [exact LE|lia].
  Qed.
  Lemma message_mentions m p tag : message_function database node m p -> mentions p tag -> tag = full m "t" /\ (sent_by node m \/ some_received node m).
  Proof.
    assert (I1 : forall x, ("struct " ++ tag ++ " *" = "struct " ++ x ++ " *")%string -> tag = x) by (intros x E; cbn in E; injection E as E; exact (string_app_inj _ _ _ E)).
    assert (I2 : forall x, ("const struct " ++ tag ++ " *" = "const struct " ++ x ++ " *")%string -> tag = x) by (intros x E; cbn in E; injection E as E; exact (string_app_inj _ _ _ E)).
    unfold mentions. intros [(S & ->)|[(R & ->)|(S & ->)]]; cbn [p_params]; intros H; (split; [|tauto]); destruct H as [H|H]; cbn [In] in H.
    - destruct H as [H|[H|[H|[]]]]; [discriminate|discriminate|discriminate].
    - destruct H as [H|[H|[H|[]]]]; [discriminate|symmetry in H; now apply I2|discriminate].
    - destruct H as [H|[H|[H|[]]]]; [symmetry in H; now apply I1|discriminate|discriminate].
    - destruct H as [H|[H|[H|[]]]]; discriminate.
    - destruct H as [H|[]]. symmetry in H. now apply I1.
    - destruct H as [H|[]]; discriminate.
  Qed.
  Lemma signal_mentions f m p tag : (forall s, f s = "float" \/ f s = "double") -> signal_function database floating node f m p -> ~ mentions p tag.
  Proof.
    intros F (s & t & I & T & H) M. assert (X : forall r, (f (fst s) <> "struct " ++ r /\ f (fst s) <> "const struct " ++ r)%string) by (intros r; destruct (F (fst s)) as [-> | ->]; split; discriminate).
    pose proof (type_first _ _ T) as Y. cbv zeta in H.
    assert (E : p_params p = [t] \/ p_params p = [f (fst s)]) by (destruct H as [(_ & _ & ->)|[(_ & _ & ->)|(_ & [-> | ->])]]; auto).
    unfold mentions in M. destruct E as [E|E]; rewrite E in M; destruct M as [[M|[]]|[M|[]]]; (apply (proj1 (Y _)) in M || apply (proj2 (Y _)) in M || apply (proj1 (X _)) in M || apply (proj2 (X _)) in M); exact M.
  Qed.
  (** Every structure that a declared function mentions is declared, and so in the source if all messages have data *)
  Theorem C77_known ms p tag : In p (header_functions database floating bit_fields use_float node ms) \/ In p (source_functions database floating bit_fields use_float node ms) /\ (forall m, In m ms -> 0 < g_length m) ->
    mentions p tag -> exists members, In (tag, members) (header_structs ms).
  Proof.
    intros H M. assert (G : exists m, In m ms /\ tag = full m "t" /\ (sent_by node m \/ some_received node m)).
    { destruct H as [H|(H & L)].
      - apply C77_declared in H. destruct H as (m & I & [H|H]); [exists m; split; [exact I|now apply (message_mentions m p)]|]. refine (False_ind _ (signal_mentions _ m p tag _ H M)). intros s. unfold declared_float. destruct use_float; auto.
      - apply C77_defined in H. destruct H as (m & I & [(_ & H)|[(N & _)|H]]); [exists m; split; [exact I|now apply (message_mentions m p)]|elim N; now apply L|]. refine (False_ind _ (signal_mentions _ m p tag _ H M)). intros s. unfold defined_float. destruct (_ && _); auto. }
    destruct G as (m & I & -> & V). exists (snd (struct_of database bit_fields m)). unfold header_structs, generate. cbn [fst h_structs]. unfold structs. apply in_map_iff. exists m. split.
    - unfold struct_of, struct_tag. cbn [snd]. f_equal. exact (prefix_full database m "t").
    - apply filter_In. split; [exact I|now apply involved_iff].
  Qed.
End Structs.

(** ** Helpers *)
Inductive in_tree (n : string) : stree -> Prop :=
| in_here o nodes : In (n, o) nodes -> in_tree n (STree nodes)
| in_case k cs i t nodes : In (k, Some cs) nodes -> In (i, t) cs -> in_tree n t -> in_tree n (STree nodes).
Lemma pack_level_nodes all nodes : pack_level all (STree nodes) =
  flat_map (fun nd => signal_code pack_signal all (fst nd)) nodes ++
  flat_map (fun nd => match snd nd with Some cs => switch_on all (fst nd) (map (fun c => (fst c, pack_level all (snd c))) cs) | None => [] end) nodes.
Proof.
  cbn [pack_level]. f_equal. induction nodes as [|(n & [cs|]) r IH]; [reflexivity| |exact IH]. cbn [flat_map fst snd]. rewrite <- IH. f_equal. f_equal. clear. induction cs as [|(i & t) cs IH]; [reflexivity|]. cbn [map fst snd]. now rewrite <- IH.
Qed.
Lemma unpack_level_nodes all recv nodes : unpack_level all recv (STree nodes) =
  flat_map (fun nd => match snd nd with None => if recv (fst nd) then signal_code unpack_signal all (fst nd) else [] | Some _ => signal_code unpack_signal all (fst nd) end) nodes ++
  flat_map (fun nd => match snd nd with Some cs => switch_on all (fst nd) (map (fun c => (fst c, unpack_level all recv (snd c))) cs) | None => [] end) nodes.
Proof.
  cbn [unpack_level]. f_equal. induction nodes as [|(n & [cs|]) r IH]; [reflexivity| |exact IH]. cbn [flat_map fst snd]. rewrite <- IH. f_equal. f_equal. clear. induction cs as [|(i & t) cs IH]; [reflexivity|]. cbn [map fst snd]. now rewrite <- IH.
Qed.
Lemma pack_kinds_nodes all nodes : pack_kinds all (STree nodes) =
  flat_map (fun nd => kinds_of false all (fst nd) ++ match snd nd with Some cs => flat_map (fun c => pack_kinds all (snd c)) cs | None => [] end) nodes.
Proof.
  cbn [pack_kinds]. induction nodes as [|(n & [cs|]) r IH]; [reflexivity| |]; cbn [flat_map fst snd]; rewrite <- IH; [|now rewrite app_nil_r]. rewrite <- app_assoc. f_equal. f_equal. clear. induction cs as [|(i & t) cs IH]; [reflexivity|]. cbn [flat_map snd]. now rewrite <- IH.
Qed.
Lemma unpack_kinds_nodes all recv nodes : unpack_kinds all recv (STree nodes) =
  flat_map (fun nd => match snd nd with Some cs => kinds_of true all (fst nd) ++ flat_map (fun c => unpack_kinds all recv (snd c)) cs | None => if recv (fst nd) then kinds_of true all (fst nd) else [] end) nodes.
Proof.
  cbn [unpack_kinds]. induction nodes as [|(n & [cs|]) r IH]; [reflexivity| |]; cbn [flat_map fst snd]; rewrite <- IH; [|reflexivity]. rewrite <- app_assoc. f_equal. f_equal. clear. induction cs as [|(i & t) cs IH]; [reflexivity|]. cbn [flat_map snd]. now rewrite <- IH.
Qed.
Lemma calls_pack_signal s d w st : In st (pack_signal s) -> calls true d w st -> In (d, w) (signal_kinds false s).
Proof.
  unfold pack_signal, signal_kinds. rewrite in_app_iff. intros [I|I] C.
  - destruct (is_float s); [destruct I as [<-|[]]; inversion C|]. destruct (s_signed s); [destruct I as [<-|[]]; inversion C|destruct I].
  - apply in_map_iff in I. destruct I as ((((i & sh) & d') & mask) & <- & I). inversion C; subst. apply in_map_iff. eexists. split; [|exact I]. reflexivity.
Qed.
Lemma signal_calls_pack s d w : In (d, w) (signal_kinds false s) -> exists st, In st (pack_signal s) /\ calls true d w st.
Proof.
  unfold pack_signal, signal_kinds. intros I. apply in_map_iff in I. destruct I as ((((i & sh) & d') & mask) & [= <- <-] & I).
  eexists. split; [apply in_app_iff; right; apply in_map_iff; exists (i, sh, d', mask); split; [reflexivity|exact I]|]. now constructor.
Qed.
Lemma first_rest {A B} (f : bool -> A -> B) l x : In x (match map (fun a first => f first a) l with [] => [] | y :: r => y true :: map (fun z => z false) r end) <->
  exists b a r, (b = true /\ l = a :: r \/ b = false /\ exists y, l = y :: r /\ In a r) /\ x = f b a.
Proof.
  destruct l as [|y l]; cbn [map]; [split; [intros []|intros (b & a & r & [(_ & [=])|(_ & z & [=] & _)] & _)]|]. rewrite map_map. split.
  - intros [<-|I]; [exists true, y, l; split; [now left|reflexivity]|]. apply in_map_iff in I. destruct I as (a & <- & I). exists false, a, l. split; [right; split; [reflexivity|now exists y]|reflexivity].
  - intros (b & a & r & [(-> & [= <- <-])|(-> & z & [= <- <-] & I)] & ->); [now left|right; apply in_map_iff; now exists a].
Qed.
Lemma unpack_lines s st : In st (unpack_signal s) -> (exists b i sh d mask, In (i, sh, d, mask) (segments s true) /\ st = CUnpack (is_float s || s_signed s) b (member s) d (type_length s) i sh mask) \/ forall d w, ~ calls false d w st.
Proof.
  unfold unpack_signal. rewrite in_app_iff. intros [I|I].
  - left. set (F := fun (first : bool) (g : Z * Z * dir * Z) => let '(i, sh, d, mask) := g in CUnpack (is_float s || s_signed s) first (member s) d (type_length s) i sh mask).
    assert (E : map (fun g => let '(i, sh, d, mask) := g in fun first => CUnpack (is_float s || s_signed s) first (member s) d (type_length s) i sh mask) (segments s true) = map (fun a first => F first a) (segments s true)).
    { apply map_ext. intros (((i & sh) & d) & mask). reflexivity. }
    rewrite E in I. apply first_rest in I. destruct I as (b & (((i & sh) & d) & mask) & r & H & ->). exists b, i, sh, d, mask. split; [|reflexivity].
    destruct H as [(_ & ->)|(_ & y & -> & I)]; [now left|now right].
  - right. intros d w C. destruct (is_float s); [destruct I as [<-|[]]; inversion C|]. destruct (s_signed s); [|destruct I]. apply in_app_iff in I. destruct I as [I|[<-|[]]]; [|inversion C]. destruct (_ =? 0); [destruct I|destruct I as [<-|[]]; inversion C].
Qed.
Lemma calls_unpack_signal s d w st : In st (unpack_signal s) -> calls false d w st -> In (d, w) (signal_kinds true s).
Proof.
  intros I C. destruct (unpack_lines s st I) as [(b & i & sh & d' & mask & J & ->)|N]; [|elim (N d w C)]. inversion C; subst. unfold signal_kinds. apply in_map_iff. eexists. split; [|exact J]. reflexivity.
Qed.
Lemma signal_calls_unpack s d w : In (d, w) (signal_kinds true s) -> exists st, In st (unpack_signal s) /\ calls false d w st.
Proof.
  unfold unpack_signal, signal_kinds. intros I. apply in_map_iff in I. destruct I as ((((i & sh) & d') & mask) & [= <- <-] & I).
  set (F := fun (first : bool) (g : Z * Z * dir * Z) => let '(i, sh, d, mask) := g in CUnpack (is_float s || s_signed s) first (member s) d (type_length s) i sh mask).
  assert (E : map (fun g => let '(i, sh, d, mask) := g in fun first => CUnpack (is_float s || s_signed s) first (member s) d (type_length s) i sh mask) (segments s true) = map (fun a first => F first a) (segments s true)).
  { apply map_ext. intros (((i' & sh') & d) & mask'). reflexivity. }
  rewrite E. assert (X : exists b, In (F b (i, sh, d', mask)) (match map (fun a first => F first a) (segments s true) with [] => [] | y :: r => y true :: map (fun z => z false) r end)).
  { destruct (segments s true) as [|y l] eqn:Q; [destruct I|]. destruct I as [->|I]; [exists true|exists false]; apply first_rest; [exists true, (i, sh, d', mask), l; split; [now left|reflexivity]|exists false, (i, sh, d', mask), l; split; [right; split; [reflexivity|now exists y]|reflexivity]]. }
  destruct X as (b & X). exists (F b (i, sh, d', mask)). split; [apply in_app_iff; now left|]. now constructor.
Qed.
Lemma sort_cases_in {A} (l : list (Z * A)) x : In x (sort_cases l) <-> In x l.
Proof. unfold sort_cases. split; apply Permutation_in; [apply sorted_py_perm|apply Permutation_sym, sorted_py_perm]. Qed.
Lemma switch_calls pack all n cases d w st : In st (switch_on all n cases) -> calls pack d w st -> exists i body x, In (i, body) cases /\ In x body /\ calls pack d w x.
Proof. unfold switch_on. destruct (find_signal all n) as [s|]; [|intros []]. intros [<-|[]] C. inversion C; subst. exists id, body, st. now rewrite <- sort_cases_in. Qed.
Lemma calls_switch pack all n cases d w i body x : find_signal all n <> None -> In (i, body) cases -> In x body -> calls pack d w x -> exists st, In st (switch_on all n cases) /\ calls pack d w st.
Proof. unfold switch_on. destruct (find_signal all n) as [s|]; [|now intros []]. intros _ I X C. eexists. split; [now left|]. apply (calls_case pack d w _ _ _ _ i body x); [now apply sort_cases_in|exact X|exact C]. Qed.
Lemma pack_kinds_iff all t d w : (forall n, in_tree n t -> find_signal all n <> None) ->
  (In (d, w) (pack_kinds all t) <-> exists st, In st (pack_level all t) /\ calls true d w st).
Proof.
  induction t as [nodes IH] using stree_induction. intros K. rewrite pack_kinds_nodes, pack_level_nodes, in_flat_map. split.
  - intros ((n & o) & I & H). apply in_app_iff in H. destruct H as [H|H]; cbn [fst snd] in H.
    + unfold kinds_of in H. destruct (find_signal all n) as [s|] eqn:F; [|destruct H]. destruct (signal_calls_pack _ _ _ H) as (st & S & C). exists st. split; [|exact C]. apply in_app_iff. left. apply in_flat_map. exists (n, o). split; [exact I|]. unfold signal_code. cbn [fst]. now rewrite F.
    + destruct o as [cs|]; [|destruct H]. apply in_flat_map in H. destruct H as ((i & t) & J & H). cbn [snd] in H.
      apply (IH n cs i t I J) in H; [|intros n' N; apply K; now apply (in_case _ n cs i t)]. destruct H as (x & X & C).
      destruct (calls_switch true all n (map (fun c => (fst c, pack_level all (snd c))) cs) d w i (pack_level all t) x) as (st & S & C'); [apply K; now apply (in_here n (Some cs))|apply in_map_iff; now exists (i, t)|exact X|exact C|].
      exists st. split; [|exact C']. apply in_app_iff. right. apply in_flat_map. exists (n, Some cs). now split.
  - intros (st & S & C). apply in_app_iff in S. destruct S as [S|S]; apply in_flat_map in S; destruct S as ((n & o) & I & S); cbn [fst snd] in S; exists (n, o); (split; [exact I|]); apply in_app_iff; cbn [fst snd].
    + left. unfold signal_code in S. unfold kinds_of. destruct (find_signal all n) as [s|]; [|destruct S]. now apply (calls_pack_signal s d w st).
    + right. destruct o as [cs|]; [|destruct S]. destruct (switch_calls _ _ _ _ _ _ _ S C) as (i & body & x & J & X & C'). apply in_map_iff in J. destruct J as ((i' & t) & [= <- <-] & J).
      apply in_flat_map. exists (i', t). split; [exact J|]. apply (IH n cs i' t I J); [intros n' N; apply K; now apply (in_case _ n cs i' t)|]. now exists x.
Qed.
Lemma unpack_kinds_iff all recv t d w : (forall n, in_tree n t -> find_signal all n <> None) ->
  (In (d, w) (unpack_kinds all recv t) <-> exists st, In st (unpack_level all recv t) /\ calls false d w st).
Proof.
  induction t as [nodes IH] using stree_induction. intros K. rewrite unpack_kinds_nodes, unpack_level_nodes, in_flat_map. split.
  - intros ((n & o) & I & H). cbn [fst snd] in H. destruct o as [cs|].
    + apply in_app_iff in H. destruct H as [H|H].
      * unfold kinds_of in H. destruct (find_signal all n) as [s|] eqn:F; [|destruct H]. destruct (signal_calls_unpack _ _ _ H) as (st & S & C). exists st. split; [|exact C]. apply in_app_iff. left. apply in_flat_map. exists (n, Some cs). split; [exact I|]. unfold signal_code. cbn [fst snd]. now rewrite F.
      * apply in_flat_map in H. destruct H as ((i & t) & J & H). cbn [snd] in H.
        apply (IH n cs i t I J) in H; [|intros n' N; apply K; now apply (in_case _ n cs i t)]. destruct H as (x & X & C).
        destruct (calls_switch false all n (map (fun c => (fst c, unpack_level all recv (snd c))) cs) d w i (unpack_level all recv t) x) as (st & S & C'); [apply K; now apply (in_here n (Some cs))|apply in_map_iff; now exists (i, t)|exact X|exact C|].
        exists st. split; [|exact C']. apply in_app_iff. right. apply in_flat_map. exists (n, Some cs). now split.
    + destruct (recv n) eqn:R; [|destruct H]. unfold kinds_of in H. destruct (find_signal all n) as [s|] eqn:F; [|destruct H]. destruct (signal_calls_unpack _ _ _ H) as (st & S & C). exists st. split; [|exact C]. apply in_app_iff. left. apply in_flat_map. exists (n, None). split; [exact I|]. unfold signal_code. cbn [fst snd]. now rewrite R, F.
  - intros (st & S & C). apply in_app_iff in S. destruct S as [S|S]; apply in_flat_map in S; destruct S as ((n & o) & I & S); cbn [fst snd] in S; exists (n, o); (split; [exact I|]); cbn [fst snd].
    + destruct o as [cs|]; [apply in_app_iff; left|destruct (recv n); [|destruct S]]; unfold signal_code in S; unfold kinds_of; (destruct (find_signal all n) as [s|]; [|destruct S]); now apply (calls_unpack_signal s d w st).
    + destruct o as [cs|]; [|destruct S]. apply in_app_iff. right. destruct (switch_calls _ _ _ _ _ _ _ S C) as (i & body & x & J & X & C'). apply in_map_iff in J. destruct J as ((i' & t) & [= <- <-] & J).
      apply in_flat_map. exists (i', t). split; [exact J|]. apply (IH n cs i' t I J); [intros n' N; apply K; now apply (in_case _ n cs i' t)|]. now exists x.
Qed.
Lemma type_length_cases s : In (type_length s) [8; 16; 32; 64].
Proof. unfold type_length. destruct (s_length s <=? 8), (s_length s <=? 16), (s_length s <=? 32); cbn; auto. Qed.
Lemma sorted_kinds_iff l d w : (forall k, In k l -> In (snd k) [8; 16; 32; 64]) -> (In (d, w) (sorted_kinds l) <-> In (d, w) l).
Proof.
  intros V. unfold sorted_kinds. rewrite filter_In, existsb_exists.
  assert (E : forall a b, kind_eqb a b = true <-> a = b).
  { intros (x & a) (y & b). unfold kind_eqb. cbn [fst snd]. destruct x, y; cbn [andb]; rewrite ?Z.eqb_eq; split; (discriminate || (intros ->; reflexivity) || (intros [= ->]; reflexivity)). }
  split; [intros (_ & k & I & Q); apply E in Q; now subst|]. intros I. split; [|exists (d, w); split; [exact I|now apply E]].
  specialize (V _ I). cbn [snd] in V. destruct d; cbn in V; unfold every_kind; cbn; intuition (subst; auto).
Qed.
Lemma sorted_kinds_nodup l : NoDup (sorted_kinds l).
Proof. apply NoDup_filter. unfold every_kind. repeat (constructor; [cbn; intuition discriminate|]). constructor. Qed.
Lemma kinds_of_valid invert all n k : In k (kinds_of invert all n) -> In (snd k) [8; 16; 32; 64].
Proof. unfold kinds_of. destruct (find_signal all n) as [s|]; [|intros []]. unfold signal_kinds. intros I. apply in_map_iff in I. destruct I as ((((i & sh) & d) & m) & <- & _). apply type_length_cases. Qed.
Lemma pack_kinds_valid all t k : In k (pack_kinds all t) -> In (snd k) [8; 16; 32; 64].
Proof.
  induction t as [nodes IH] using stree_induction. rewrite pack_kinds_nodes, in_flat_map. intros ((n & o) & I & H). apply in_app_iff in H. destruct H as [H|H]; [now apply (kinds_of_valid false all n)|].
  destruct o as [cs|]; [|destruct H]. cbn [snd] in H. apply in_flat_map in H. destruct H as ((i & t) & J & H). now apply (IH n cs i t).
Qed.
Lemma unpack_kinds_valid all recv t k : In k (unpack_kinds all recv t) -> In (snd k) [8; 16; 32; 64].
Proof.
  induction t as [nodes IH] using stree_induction. rewrite unpack_kinds_nodes, in_flat_map. intros ((n & o) & I & H). destruct o as [cs|]; cbn [fst snd] in H.
  - apply in_app_iff in H. destruct H as [H|H]; [now apply (kinds_of_valid true all n)|]. apply in_flat_map in H. destruct H as ((i & t) & J & H). now apply (IH n cs i t).
  - destruct (recv n); [now apply (kinds_of_valid true all n)|destruct H].
Qed.
Section Helpers.
  Context (database : string) (floating bit_fields use_float : bool) (node : option string).
  Definition the_source (ms : list gmessage) : csource := snd (fst (generate database floating bit_fields use_float node ms)).
  Definition well_named (m : gmessage) : Prop := forall n, in_tree n (g_tree m) -> find_signal (all_signals m) n <> None.
  (** The helpers that the source has are those that its pack and unpack functions call, each once *)
  Theorem C77_helpers ms d w : (forall m, In m ms -> well_named m) ->
    (In (d, w) (c_pack_helpers (the_source ms)) <-> exists m st, In m ms /\ 0 < g_length m /\ In st (pack_level (all_signals m) (g_tree m)) /\ calls true d w st) /\
    (In (d, w) (c_unpack_helpers (the_source ms)) <-> exists m st, In m ms /\ 0 < g_length m /\ In st (unpack_level (all_signals m) (recv_name node m) (g_tree m)) /\ calls false d w st) /\
    NoDup (c_pack_helpers (the_source ms)) /\ NoDup (c_unpack_helpers (the_source ms)).
  Proof.
    intros K. unfold the_source, generate. cbn [fst snd c_pack_helpers c_unpack_helpers]. unfold pack_helpers, unpack_helpers. split; [|split; [|split; apply sorted_kinds_nodup]].
    - rewrite sorted_kinds_iff, in_flat_map.
      + split.
        * intros (m & I & H). destruct (Z.ltb_spec 0 (g_length m)) as [L|L]; [|destruct H]. apply (pack_kinds_iff _ _ _ _ (K m I)) in H. destruct H as (st & H). now exists m, st.
        * intros (m & st & I & L & H). exists m. split; [exact I|]. destruct (Z.ltb_spec 0 (g_length m)) as [_|]; [|lia]. apply (pack_kinds_iff _ _ _ _ (K m I)). now exists st.
      + intros k H. apply in_flat_map in H. destruct H as (m & _ & H). destruct (0 <? g_length m); [now apply pack_kinds_valid in H|destruct H].
    - rewrite sorted_kinds_iff, in_flat_map.
      + split.
        * intros (m & I & H). destruct (Z.ltb_spec 0 (g_length m)) as [L|L]; [|destruct H]. apply (unpack_kinds_iff _ _ _ _ _ (K m I)) in H. destruct H as (st & H). now exists m, st.
        * intros (m & st & I & L & H). exists m. split; [exact I|]. destruct (Z.ltb_spec 0 (g_length m)) as [_|]; [|lia]. apply (unpack_kinds_iff _ _ _ _ _ (K m I)). now exists st.
      + intros k H. apply in_flat_map in H. destruct H as (m & _ & H). destruct (0 <? g_length m); [now apply unpack_kinds_valid in H|destruct H].
  Qed.
End Helpers.

(** ** Macros *)
Section Macros.
  Context (database : string) (floating bit_fields use_float : bool) (node : option string).
  Definition header_macros (ms : list gmessage) : list (string * macro) := h_macros (fst (fst (generate database floating bit_fields use_float node ms))).
  (** What every message that concerns the node has *)
  Definition message_macro (m : gmessage) (what : string) (v : macro) : Prop :=
    what = "FRAME_ID" /\ v = MNum (g_id m) \/ what = "LENGTH" /\ v = MNum (g_length m) \/
    what = "IS_EXTENDED" /\ v = MNum (if g_extended m then 1 else 0) \/ what = "NAME" /\ v = MText (g_name m) \/
    (exists c, what = "CYCLE_TIME_MS" /\ g_cycle m = Some c /\ v = MNum c) \/
    exists s, In s (g_signals m) /\ what = (up (snake (s_name (fst s))) ++ "_NAME")%string /\ v = MText (s_name (fst s)).
  (** What the signals have that the node sends or receives: the names of the choices are those of C41 *)
  Definition choice_macro (m : gmessage) (what : string) (v : macro) : Prop :=
    exists s table value name, In s (g_signals m) /\ (sent_by node m \/ received_by node s) /\ conv_choices (s_conv (fst s)) = Some table /\ In (value, name) (unique_choices table) /\
      what = (up (snake (s_name (fst s))) ++ "_" ++ string_of_list_ascii name ++ "_CHOICE")%string /\ v = MNum value.
  Theorem C77_macros ms name v : In (name, v) (header_macros ms) <->
    exists m what, In m ms /\ name = (up database ++ "_" ++ up (snake (g_name m)) ++ "_" ++ what)%string /\
      ((sent_by node m \/ some_received node m) /\ message_macro m what v \/ choice_macro m what v).
  Proof.
    unfold header_macros, generate. cbn [fst h_macros]. unfold macros. rewrite !in_app_iff.
    assert (FM : forall f, In (name, v) (for_messages node f ms) <-> exists m, In m ms /\ (sent_by node m \/ some_received node m) /\ In (name, v) (f m)).
    { intros f. unfold for_messages. rewrite in_flat_map. split; intros (m & H).
      - destruct H as (I & H). apply filter_In in I. destruct I as (I & V). exists m. split; [exact I|]. split; [now apply involved_iff|exact H].
      - destruct H as (I & V & H). exists m. split; [|exact H]. apply filter_In. split; [exact I|now apply involved_iff]. }
    rewrite !FM. clear FM. unfold macro_name, snaked. split.
    - intros [H|[H|[H|[H|[H|[H|H]]]]]].
      + destruct H as (m & I & V & [H|[]]). injection H as <- <-. exists m, "FRAME_ID". split; [exact I|]. split; [reflexivity|]. left. split; [exact V|]. unfold message_macro. tauto.
      + destruct H as (m & I & V & [H|[]]). injection H as <- <-. exists m, "LENGTH". split; [exact I|]. split; [reflexivity|]. left. split; [exact V|]. unfold message_macro. tauto.
      + destruct H as (m & I & V & [H|[]]). injection H as <- <-. exists m, "IS_EXTENDED". split; [exact I|]. split; [reflexivity|]. left. split; [exact V|]. unfold message_macro. tauto.
      + destruct H as (m & I & V & H). destruct (g_cycle m) as [c|] eqn:C; [|destruct H]. destruct H as [H|[]]. injection H as <- <-. exists m, "CYCLE_TIME_MS". split; [exact I|]. split; [reflexivity|]. left. split; [exact V|]. unfold message_macro. right. right. right. right. left. exists c. auto.
      + apply in_flat_map in H. destruct H as (m & I & H). unfold choice_lines in H. apply in_flat_map in H. destruct H as (s & S & H). destruct (conv_choices (s_conv (fst s))) as [table|] eqn:T; [|destruct H].
        destruct (sends node m || receives node s) eqn:E; [|destruct H]. rewrite Bool.orb_true_iff, sends_iff, receives_iff in E. apply in_map_iff in H. destruct H as ((value & nm) & H & U). injection H as <- <-. cbn [fst snd].
        exists m, (up (member (fst s)) ++ "_" ++ string_of_list_ascii nm ++ "_CHOICE")%string. split; [exact I|]. split; [reflexivity|]. right. exists s, table, value, nm. split; [exact S|]. split; [exact E|]. split; [exact T|]. split; [|split; reflexivity].
        revert U. apply Permutation_in, sorted_py_perm.
      + destruct H as (m & I & V & [H|[]]). injection H as <- <-. exists m, "NAME". split; [exact I|]. split; [reflexivity|]. left. split; [exact V|]. unfold message_macro. tauto.
      + destruct H as (m & I & V & H). apply in_map_iff in H. destruct H as (s & H & S). injection H as <- <-. exists m, (up (member (fst s)) ++ "_NAME")%string. split; [exact I|]. split; [reflexivity|]. left. split; [exact V|]. unfold message_macro. right. right. right. right. right. now exists s.
    - intros (m & what & I & -> & [(V & H)|H]).
      + destruct H as [(-> & ->)|[(-> & ->)|[(-> & ->)|[(-> & ->)|[(c & -> & C & ->)|(s & S & -> & ->)]]]]].
        * left. exists m. split; [exact I|]. split; [exact V|now left].
        * right. left. exists m. split; [exact I|]. split; [exact V|now left].
        * right. right. left. exists m. split; [exact I|]. split; [exact V|now left].
        * right. right. right. right. right. left. exists m. split; [exact I|]. split; [exact V|now left].
        * right. right. right. left. exists m. split; [exact I|]. split; [exact V|]. rewrite C. now left.
        * do 6 right. exists m. split; [exact I|]. split; [exact V|]. apply in_map_iff. now exists s.
      + destruct H as (s & table & value & nm & S & E & T & U & -> & ->). do 4 right. left. apply in_flat_map. exists m. split; [exact I|]. unfold choice_lines. apply in_flat_map. exists s. split; [exact S|].
        rewrite T. assert (Q : sends node m || receives node s = true) by (rewrite Bool.orb_true_iff, sends_iff, receives_iff; exact E). rewrite Q. apply in_map_iff. exists (value, nm). split; [reflexivity|]. revert U. apply Permutation_in, Permutation_sym, sorted_py_perm.
  Qed.
End Macros.

(** ** The fuzzer *)
Section Fuzzer.
  Context (database : string) (floating bit_fields use_float : bool).
  Definition the_fuzzer (node : option string) (ms : list gmessage) : list (string * list string) := snd (generate database floating bit_fields use_float node ms).
  (** The fuzzer has a test for every message, and all it uses is declared and defined if the files are for all nodes *)
  Theorem C77_fuzzer ms :
    (forall node m, In m ms -> In (full database m "t", [full database m "unpack"; full database m "pack"]) (the_fuzzer node ms)) /\
    forall tag fs, In (tag, fs) (the_fuzzer None ms) ->
      (exists members, In (tag, members) (header_structs database floating bit_fields use_float None ms)) /\
      forall f, In f fs -> exists p, p_name p = f /\ In p (header_functions database floating bit_fields use_float None ms) /\ In p (source_functions database floating bit_fields use_float None ms).
  Proof.
    split.
    - intros node m I. unfold the_fuzzer, generate. cbn [snd]. apply in_map_iff. now exists m.
    - intros tag fs H. unfold the_fuzzer, generate in H. cbn [snd] in H. apply in_map_iff in H. destruct H as (m & H & I). injection H as <- <-. change (database ++ "_" ++ snake (g_name m) ++ "_t")%string with (full database m "t"). change (database ++ "_" ++ snake (g_name m) ++ "_unpack")%string with (full database m "unpack"). change (database ++ "_" ++ snake (g_name m) ++ "_pack")%string with (full database m "pack").
      set (pk := mkProto "int" (full database m "pack") ["uint8_t *"; ("const struct " ++ full database m "t" ++ " *")%string; "size_t"]).
      set (un := mkProto "int" (full database m "unpack") [("struct " ++ full database m "t" ++ " *")%string; "const uint8_t *"; "size_t"]).
      assert (P : message_function database None m pk) by (left; split; [exact Logic.I|reflexivity]).
      assert (U : message_function database None m un) by (right; left; split; [now left|reflexivity]).
      assert (A : forall p, p = pk \/ p = un -> In p (header_functions database floating bit_fields use_float None ms) /\ In p (source_functions database floating bit_fields use_float None ms)).
      { intros p E. split.
        - apply C77_declared. exists m. split; [exact I|]. left. destruct E as [-> | ->]; assumption.
        - apply C77_defined. exists m. split; [exact I|]. destruct (Z.ltb_spec 0 (g_length m)) as [L|L]; [left; split; [exact L|destruct E as [-> | ->]; assumption]|right; left; split; [lia|exact E]]. }
      split.
      + apply (C77_known database floating bit_fields use_float None ms pk); [left; apply A; now left|]. right. right. now left.
      + intros f [<-|[<-|[]]]; [exists un|exists pk]; (split; [reflexivity|]); apply A; auto.
  Qed.
End Fuzzer.

(** ** Where the files do not fit together *)
Definition plain (n : string) (len : Z) (floats : bool) : signal := mkSignal n 0 len false false (CNum (CIdent floats)) None None false None None.
Definition gmsg (n : string) (len : Z) (senders : list string) (signals : list (signal * list string)) : gmessage :=
  mkGMessage n 1 false len None senders signals (STree (map (fun s => (s_name (fst s), None)) signals)).
(** A message without data: its init function is declared but not defined *)
Theorem C77_init_refuted : ~ forall database ms p, In p (header_functions database true false false None ms) -> exists q, In q (source_functions database true false false None ms) /\ p_name q = p_name p.
Proof.
  intros H. destruct (H "db" [gmsg "Ping" 0 [] []] (mkProto "int" "db_ping_init" ["struct db_ping_t *"])) as (q & I & E); [vm_compute; tauto|].
  vm_compute in I. destruct I as [<-|[<-|[]]]; discriminate.
Qed.
(** A message without data that does not concern the node: its functions are defined with a structure that is not declared *)
Theorem C77_struct_refuted : ~ forall database node ms p tag, In p (source_functions database true false false node ms) -> mentions p tag -> exists members, In (tag, members) (header_structs database true false false node ms).
Proof.
  intros H. destruct (H "db" (Some "A") [gmsg "Ping" 0 ["B"] []] (mkProto "int" "db_ping_pack" ["uint8_t *"; "const struct db_ping_t *"; "size_t"]) "db_ping_t") as (members & I); [vm_compute; tauto|right; right; now left|].
  vm_compute in I. exact I.
Qed.
(** use_float with a signal that is a double: its functions have other types in the source than in the header *)
Theorem C77_float_refuted : ~ forall database ms p q, (forall m, In m ms -> 0 < g_length m) ->
  In p (header_functions database true false true None ms) -> In q (source_functions database true false true None ms) -> p_name p = p_name q -> p = q.
Proof.
  intros H. specialize (H "db" [gmsg "Temp" 8 [] [(plain "Value" 64 true, [])]] (mkProto "double" "db_temp_value_encode" ["float"]) (mkProto "double" "db_temp_value_encode" ["double"])).
  discriminate H; [|vm_compute; tauto|vm_compute; tauto|reflexivity]. intros m [<-|[]]. reflexivity.
Qed.
(** For one node the fuzzer still tests all messages *)
Theorem C77_fuzzer_refuted : ~ forall database node ms tag fs, In (tag, fs) (the_fuzzer database true false false node ms) -> exists members, In (tag, members) (header_structs database true false false node ms).
Proof.
  intros H. destruct (H "db" (Some "A") [gmsg "Ping" 8 ["B"] [(plain "Value" 8 false, ["C"])]] "db_ping_t" ["db_ping_unpack"; "db_ping_pack"]) as (members & I); [now left|].
  vm_compute in I. exact I.
Qed.
(** A signal of more than 64 bits: its bit field is wider than its type *)
Theorem C77_width_refuted : ~ forall database ms tag members t n w, In (tag, members) (header_structs database true true false None ms) -> In (t, n, Some w) members -> t = "uint64_t" -> w <= 64.
Proof.
  intros H. specialize (H "db" [gmsg "Long" 16 [] [(plain "Value" 100 false, [])]] "db_long_t" [("uint64_t", "value", Some 100)] "uint64_t" "value" 100 (or_introl eq_refl) (or_introl eq_refl) eq_refl). lia.
Qed.

(** ** A database with two messages and three nodes *)
Definition speed : signal := mkSignal "WheelSpeed" 0 12 false false (CNum (CIdent false)) None None false None None.
Definition gear : signal := mkSignal "Gear" 12 4 false false (CNamed (NInt 1) (NInt 0) [(0, ChStr "Park"); (1, ChStr "Drive")] [("Park", 0); ("Drive", 1)] false (CIdent false)) None None false None None.
Definition temp : signal := mkSignal "Temp" 0 32 false true (CNum (CIdent true)) None None false None None.
Definition two : list gmessage :=
  [mkGMessage "DriveState" 291 false 2 (Some 20) ["Engine"] [(speed, ["Dash"]); (gear, ["Gateway"])] (STree [("WheelSpeed", None); ("Gear", None)]);
   mkGMessage "Climate" 419365000 true 4 None ["Gateway"] [(temp, ["Dash"])] (STree [("Temp", None)])].
Example C77_hypotheses :
  (forall m, In m two -> 0 < g_length m /\ well_named m) /\
  (forall m s, In m two -> In s (g_signals m) -> s_length (fst s) <= 64 /\ (conv_is_float (s_conv (fst s)) = true -> s_length (fst s) = 32)) /\
  map p_name (header_functions "car" true true true (Some "Dash") two) =
    ["car_drive_state_unpack"; "car_drive_state_init"; "car_drive_state_wheel_speed_decode"; "car_drive_state_wheel_speed_is_in_range"; "car_drive_state_wheel_speed_is_in_phys_range";
     "car_climate_unpack"; "car_climate_init"; "car_climate_temp_decode"; "car_climate_temp_is_in_range"; "car_climate_temp_is_in_phys_range"] /\
  source_functions "car" true true true (Some "Dash") two = header_functions "car" true true true (Some "Dash") two /\
  header_structs "car" true true true (Some "Engine") two = [("car_drive_state_t", [("uint16_t", "wheel_speed", Some 12); ("uint8_t", "gear", Some 4)])] /\
  header_macros "car" true true true (Some "Engine") two =
    [("CAR_DRIVE_STATE_FRAME_ID", MNum 291); ("CAR_DRIVE_STATE_LENGTH", MNum 2); ("CAR_DRIVE_STATE_IS_EXTENDED", MNum 0); ("CAR_DRIVE_STATE_CYCLE_TIME_MS", MNum 20);
     ("CAR_DRIVE_STATE_GEAR_PARK_CHOICE", MNum 0); ("CAR_DRIVE_STATE_GEAR_DRIVE_CHOICE", MNum 1); ("CAR_DRIVE_STATE_NAME", MText "DriveState");
     ("CAR_DRIVE_STATE_WHEEL_SPEED_NAME", MText "WheelSpeed"); ("CAR_DRIVE_STATE_GEAR_NAME", MText "Gear")] /\
  c_pack_helpers (the_source "car" true true true (Some "Engine") two) = [(Left, 8); (Left, 16); (Left, 32); (Right, 16); (Right, 32)] /\
  map fst (the_fuzzer "car" true true true None two) = ["car_drive_state_t"; "car_climate_t"].
Proof.
  split.
  { intros m I. assert (W : forall n m', In m' two -> in_tree n (g_tree m') -> In n (map s_name (all_signals m'))).
    { intros n m' [<-|[<-|[]]] T; inversion T as [o nodes J E|k cs i t nodes J _ _ E]; subst; cbn in J |- *; intuition congruence. }
    split; [destruct I as [<-|[<-|[]]]; reflexivity|]. intros n T. specialize (W n m I T). destruct I as [<-|[<-|[]]]; cbn in W; (destruct W as [<-|[<-|[]]] || destruct W as [<-|[]]); vm_compute; discriminate. }
  split; [intros m s [<-|[<-|[]]] S; cbn in S; (destruct S as [<-|[<-|[]]] || destruct S as [<-|[]]); cbn; (split; [lia|congruence])|].
  repeat split; vm_compute; reflexivity.
Qed.
