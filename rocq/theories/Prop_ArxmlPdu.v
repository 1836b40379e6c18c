(** Prop_ArxmlPdu: property C71, which signals a PDU of an ARXML system file has, and where they lie. *)
From Coq Require Import Ascii Floats.SpecFloat.
From Verif Require Import Base PyNum Conversion Signal Message DictLemmas CSource CNames Regex DbcToken DbcTables Logreader DecodeCmd Xml Arxml ArxmlLoad Prop_Arxml ArxmlReach Prop_ArxmlNum.
Local Open Scope string_scope.
Local Open Scope Z_scope.
Local Open Scope list_scope.

(** ** What a file says about the signals of a PDU *)
(** What places a signal: name, start, length, byte order, kind of number, and how it depends on a selector *)
Record place := mkPlace {
  pl_name : string; pl_start : Z; pl_length : Z; pl_big : bool; pl_signed : bool; pl_float : bool;
  pl_is_mux : bool; pl_ids : option (list Z); pl_sel : option string }.
Definition place_of (s : signal) : place :=
  mkPlace (s_name s) (s_start s) (s_length s) (s_big s) (s_signed s) (conv_is_float (s_conv s)) (s_is_mux s) (s_mux_ids s) (s_mux_sig s).

Section Spec.
  Context (from_text : chars -> option spec_float) (from_hex : chars -> result spec_float) (ns : chars) (root : xml) (v4 : bool).
  Notation reach := (reach ns root).
  Notation only := (only ns root).
  Notation nothing := (nothing ns root).
  Notation text_at := (text_at ns root).
  Notation int_at := (int_at from_text from_hex ns root).
  Notation is_tag t n := (is_tag ns (txt t) (snd n)).
  Definition either {A} (a b : A) : A := if v4 then a else b.

  (** The name of a signal is that of the I-SIGNAL, unless the name of the system signal has elements in it *)
  Definition signal_name (i : node) (name : chars) : Prop :=
    (exists k, only i ["SYSTEM-SIGNAL"; "SHORT-NAME"] k /\ x_kids (snd k) <> [] /\ name = x_text (snd k)) \/
    ((forall k, only i ["SYSTEM-SIGNAL"; "SHORT-NAME"] k -> x_kids (snd k) = []) /\ text_at i ["SHORT-NAME"] name).
  Definition signal_length (i : node) (len : Z) : Prop :=
    int_at i ["LENGTH"] len \/ v4 = false /\ nothing i ["LENGTH"] /\ exists sys, only i ["SYSTEM-SIGNAL"] sys /\ int_at sys ["LENGTH"] len.
  Definition encoding (i : node) (t : string) : Prop :=
    text_at i ["NETWORK-REPRESENTATION-PROPS"; "SW-DATA-DEF-PROPS-VARIANTS"; "SW-DATA-DEF-PROPS-CONDITIONAL"; "BASE-TYPE"; "BASE-TYPE-ENCODING"] (txt t).
  Definition maps (mapping : node) (p : place) : Prop :=
    exists i name, only mapping (either ["I-SIGNAL"] ["SIGNAL"]) i /\
      (forall sys, only i ["SYSTEM-SIGNAL"] sys -> is_tag "SYSTEM-SIGNAL" sys) /\
      signal_name i name /\ pl_name p = to_string name /\
      int_at mapping ["START-POSITION"] (pl_start p) /\ signal_length i (pl_length p) /\
      (pl_big p = true <-> text_at mapping ["PACKING-BYTE-ORDER"] (txt "MOST-SIGNIFICANT-BYTE-FIRST")) /\
      (pl_signed p = true <-> encoding i "2C" \/ encoding i "1C" \/ encoding i "SM") /\
      (pl_float p = true <-> encoding i "IEEE754") /\
      pl_is_mux p = false /\ pl_ids p = None /\ pl_sel p = None.
  Definition mapping_of (pdu m : node) : Prop :=
    reach pdu [either "I-SIGNAL-TO-PDU-MAPPINGS" "SIGNAL-TO-PDU-MAPPINGS"; "I-SIGNAL-TO-I-PDU-MAPPING"] m \/
    reach pdu ["I-SIGNAL-TO-I-PDU-MAPPINGS"; "I-SIGNAL-TO-I-PDU-MAPPING"] m.
  Definition alternative (pdu alt : node) : Prop :=
    reach pdu (either ["DYNAMIC-PARTS"; "DYNAMIC-PART"; "DYNAMIC-PART-ALTERNATIVES"; "DYNAMIC-PART-ALTERNATIVE"]
                      ["DYNAMIC-PART"; "DYNAMIC-PART-ALTERNATIVES"; "DYNAMIC-PART-ALTERNATIVE"]) alt.
  (** A static part is found by making the reference absolute and then following it *)
  Definition static_part (pdu q : node) : Prop :=
    exists r base dest a a', reach pdu (either ["STATIC-PARTS"; "STATIC-PART"; "I-PDU-REF"] ["STATIC-PART"; "I-PDU-REF"]) r /\
      attr_says (snd r) "BASE" base /\ attr_says (snd r) "DEST" dest /\ x_text (snd r) <> [] /\
      stands_for ns root (fst pdu) (x_text (snd r)) base a /\ stands_for ns root (fst pdu) a None a' /\ leads_to ns root a' dest q.
  (** A signal of an alternative, if it does not depend on another selector already *)
  Definition depend (sel : string) (v : Z) (p : place) : place :=
    match pl_sel p with
    | Some _ => p
    | None => mkPlace (pl_name p) (pl_start p) (pl_length p) (pl_big p) (pl_signed p) (pl_float p) (pl_is_mux p) (Some [v]) (Some sel)
    end.
  Definition ordinary (pdu : node) : Prop := ~ is_tag "CONTAINER-I-PDU" pdu /\ ~ is_tag "SECURED-I-PDU" pdu.
  Definition multiplexed (pdu : node) : Prop := ordinary pdu /\ is_tag "MULTIPLEXED-I-PDU" pdu.
  Definition selector (frame : chars) (next : Z) : string := to_string (frame ++ txt "_selector" ++ decimal next).
  (** The signals of a PDU; [next] is the number of the next selector *)
  Inductive carried (frame : chars) : node -> Z -> place -> Prop :=
  | car_signal pdu next m p : ordinary pdu -> mapping_of pdu m -> maps m p -> carried frame pdu next p
  | car_secured pdu next q p : ~ is_tag "CONTAINER-I-PDU" pdu -> is_tag "SECURED-I-PDU" pdu -> only pdu ["PAYLOAD"; "I-PDU"] q -> carried frame q next p -> carried frame pdu next p
  | car_selector pdu next pos len (big : bool) : multiplexed pdu -> int_at pdu ["SELECTOR-FIELD-START-POSITION"] pos -> int_at pdu ["SELECTOR-FIELD-LENGTH"] len ->
      (big = true <-> text_at pdu ["SELECTOR-FIELD-BYTE-ORDER"] (txt "MOST-SIGNIFICANT-BYTE-FIRST")) ->
      carried frame pdu next (mkPlace (selector frame next) pos len big false false true None None)
  | car_dynamic pdu next pos alt q v p : multiplexed pdu -> int_at pdu ["SELECTOR-FIELD-START-POSITION"] pos -> alternative pdu alt ->
      int_at alt ["SELECTOR-FIELD-CODE"] v -> only alt ["I-PDU"] q -> carried frame q (next + 1) p -> pl_start p <> pos ->
      carried frame pdu next (depend (selector frame next) v p)
  | car_static pdu next q p : multiplexed pdu -> static_part pdu q -> carried frame q (next + 1) p -> carried frame pdu next p.

  (** The signals that stand behind the payload of a secured PDU.  The first bit of a big endian signal, counted from the
      most significant bit of the first byte on: *)
  Definition first_bit (start : Z) : Z := 8 * (start / 8) + (7 - start mod 8).
  Definition tail_signal (frame : chars) (pdu : node) (p : place) : Prop :=
    exists q len f, only pdu ["PAYLOAD"; "I-PDU"] q /\ int_at q ["LENGTH"] len /\ int_at pdu ["FRESHNESS-PROPS"; "FRESHNESS-VALUE-TX-LENGTH"] f /\
      pl_big p = true /\ pl_signed p = false /\ pl_float p = false /\ pl_is_mux p = false /\ pl_ids p = None /\ pl_sel p = None /\
      (0 < f /\ pl_name p = to_string (frame ++ txt "_Freshness") /\ first_bit (pl_start p) = 8 * len /\ pl_length p = f \/
       exists a, int_at pdu ["AUTHENTICATION-PROPS"; "AUTH-INFO-TX-LENGTH"] a /\ 0 < a /\
         pl_name p = to_string (frame ++ txt "_Authenticator") /\ first_bit (pl_start p) = 8 * len + f /\ pl_length p = a).
End Spec.

(** ** Proofs *)
Lemma factory_float sc off ch fl c : factory sc off ch fl = Ok c -> conv_is_float c = fl.
Proof.
  unfold factory. intros H. apply bind_ok in H. destruct H as (i & N & H). destruct ch; injection H as <-; [reflexivity|]. cbn.
  unfold num_factory in N. destruct (py_eq sc (NInt 1) && py_eq off (NInt 0)); [now injection N as <-|].
  destruct (is_integer sc && is_integer off && negb fl) eqn:E.
  - apply andb_true_iff in E. destruct E as (_ & E). rewrite negb_true_iff in E. subst fl. apply bind_ok in N. destruct N as (x & _ & N). apply bind_ok in N. destruct N as (y & _ & N). now injection N as <-.
  - now injection N as <-.
Qed.
Lemma is_text_iff t l : is_text t l = true <-> l = txt t.
Proof. unfold is_text. destruct (cspec l (txt t)) as [E|E]; split; try discriminate; trivial; contradiction. Qed.
Lemma bool_iff (a b : bool) : (a = true <-> b = true) -> a = b.
Proof. destruct a, b; intros H; try reflexivity; [symmetry; now apply H|now apply H]. Qed.

Section Proofs.
  Context (from_text : chars -> option spec_float) (from_hex : chars -> result spec_float).
  Context (ns : chars) (root : xml) (rf : refs) (OK : reference_dicts ns root = Ok rf).
  Context (ver : version).
  Notation v4 := (ar4 ver).
  Notation reach := (reach ns root).
  Notation only := (only ns root).
  Notation nothing := (nothing ns root).
  Notation text_at := (text_at ns root).
  Notation int_at := (int_at from_text from_hex ns root).
  Notation opt_int_at := (opt_int_at from_text from_hex ns root).
  Notation valid := (valid root).
  Notation child := (child ns rf).
  Notation children := (children ns rf).

  (** *** Reading texts at places *)
  Lemma text_fun n names t t' : text_at n names t -> text_at n names t' -> t = t'.
  Proof. intros (m & O & <-) (m' & O' & <-). now rewrite (only_fun ns root n names m m' O O'). Qed.
  Lemma int_fun n names z z' : int_at n names z -> int_at n names z' -> z = z'.
  Proof. intros (t & T & I) (t' & T' & I'). rewrite (text_fun n names t t' T T') in I. congruence. Qed.
  Lemma text_only n names m t : only n names m -> (text_at n names t <-> x_text (snd m) = t).
  Proof. intros O. split; [intros (m' & O' & T); now rewrite (only_fun ns root n names m m' O O')|intros T; now exists m]. Qed.
  Lemma text_nothing n names t : nothing n names -> ~ text_at n names t.
  Proof. intros N (m & O & _). exact (only_nothing ns root n names m O N). Qed.
  Lemma get_int n l o z : valid n -> child n l = Ok o -> forallb good_atom l = true -> integer_exn from_text from_hex o = Ok z -> int_at n (map bare l) z.
  Proof.
    intros W C G I. pose proof (at_child ns root rf OK l n o W C G) as A. unfold integer_exn in I. apply bind_ok in I. destruct I as (t & T & I).
    destruct o as [m|]; [|discriminate]. injection T as <-. exists (n_text m). split; [|exact I]. exists m. split; [apply A|reflexivity].
  Qed.
  Lemma get_opt_int n l o z : valid n -> child n l = Ok o -> forallb good_atom l = true -> opt_integer from_text from_hex o = Ok z -> opt_int_at n (map bare l) z.
  Proof.
    intros W C G I. pose proof (at_child ns root rf OK l n o W C G) as A. destruct o as [m|]; [|now injection I as <-].
    cbn in I. apply bind_ok in I. destruct I as (y & I & E). injection E as <-. exists (n_text m). split; [|exact I]. exists m. split; [apply A|reflexivity].
  Qed.
  Lemma get_text n l o t : valid n -> child n l = Ok o -> forallb good_atom l = true -> text_exn o = Ok t -> text_at n (map bare l) t.
  Proof.
    intros W C G T. pose proof (at_child ns root rf OK l n o W C G) as A. destruct o as [m|]; [|discriminate]. injection T as <-. exists m. split; [apply A|reflexivity].
  Qed.
  Lemma get_flag n l o t : valid n -> child n l = Ok o -> forallb good_atom l = true ->
    (match o with Some m => is_text t (n_text m) | None => false end = true <-> text_at n (map bare l) (txt t)).
  Proof.
    intros W C G. pose proof (at_child ns root rf OK l n o W C G) as A. destruct o as [m|].
    - rewrite is_text_iff. symmetry. apply text_only. apply A.
    - split; [discriminate|]. intros T. destruct (text_nothing n _ _ A T).
  Qed.
  Lemma get_name n t : valid n -> name_of ns rf n = Ok t -> text_at n ["SHORT-NAME"] t.
  Proof. intros W H. unfold name_of in H. apply bind_ok in H. destruct H as (o & C & T). exact (get_text n _ o t W C eq_refl T). Qed.
  Lemma reach_app n a b m : reach n (a ++ b) m <-> exists k, reach n a k /\ reach k b m.
  Proof.
    unfold ArxmlReach.reach. rewrite map_app. revert n. induction (map (fun s => (true, false, s)) a) as [|x l IH]; intros n; cbn [app chain].
    - split; [intros H; now exists n|now intros (k & -> & H)].
    - split; [intros (k & H & C); apply IH in C; destruct C as (j & C1 & C2); exists j; split; [now exists k|exact C2]|].
      intros (j & (k & H & C) & C2). exists k. split; [exact H|]. apply IH. now exists j.
  Qed.
  Lemma only_app n a b k : only n a k -> forall m, (only n (a ++ b) m <-> only k b m).
  Proof.
    intros O m. assert (E : forall j, reach n (a ++ b) j <-> reach k b j).
    { intros j. rewrite reach_app. split; [intros (k' & K & R); apply O in K; now subst|intros R; exists k; split; [now apply O|exact R]]. }
    unfold ArxmlReach.only. split; intros H j; [rewrite <- E|rewrite E]; apply H.
  Qed.
  Lemma text_app n a b k t : only n a k -> (text_at n (a ++ b) t <-> text_at k b t).
  Proof. intros O. split; intros (m & M & T); exists m; (split; [|exact T]); now apply (only_app n a b k O m). Qed.
  Lemma nothing_app n a b : nothing n a -> nothing n (a ++ b).
  Proof. intros N m M. apply reach_app in M. destruct M as (k & K & _). exact (N k K). Qed.
  Lemma tag_iff t n : has_tag ns t n = true <-> is_tag ns (txt t) (snd n).
  Proof. unfold has_tag, tagged, is_tag, n_tag. destruct (cspec (x_tag (snd n)) ("{"%char :: ns ++ "}"%char :: txt t)) as [E|E]; split; try discriminate; trivial; contradiction. Qed.
  Lemma tag_not t n : has_tag ns t n = false <-> ~ is_tag ns (txt t) (snd n).
  Proof. rewrite <- tag_iff. destruct (has_tag ns t n); split; intros H; congruence. Qed.

  (** *** Signals *)
  Lemma name_ok i name : valid i -> load_name ns rf i = Ok name -> signal_name ns root i name.
  Proof.
    intros W H. unfold load_name in H. apply bind_ok in H. destruct H as (o & C & H). pose proof (at_child ns root rf OK _ i o W C eq_refl) as A.
    destruct o as [n|].
    - destruct A as (_ & A). destruct (x_kids (snd n)) as [|x ks] eqn:K.
      + right. split; [intros k O; now rewrite (only_fun ns root _ _ k n O A)|now apply get_name].
      + injection H as <-. left. exists n. split; [exact A|]. rewrite K. split; [discriminate|reflexivity].
    - right. split; [intros k O; destruct (only_nothing ns root _ _ k O A)|now apply get_name].
  Qed.
  Lemma name_fun i a b : signal_name ns root i a -> signal_name ns root i b -> a = b.
  Proof.
    intros [(k & O & K & ->)|(N & T)] [(k' & O' & K' & ->)|(N' & T')].
    - now rewrite (only_fun ns root _ _ k k' O O').
    - elim K. exact (N' k O).
    - elim K'. exact (N k' O').
    - exact (text_fun _ _ _ _ T T').
  Qed.
  Lemma length_ok i sys len : valid i -> child i ["&SYSTEM-SIGNAL"] = Ok sys -> load_length from_text from_hex ns rf ver i sys = Ok len ->
    signal_length from_text from_hex ns root v4 i len.
  Proof.
    intros W S H. unfold load_length in H. apply bind_ok in H. destruct H as (l & C & H). pose proof (at_child ns root rf OK _ i l W C eq_refl) as A.
    destruct l as [n|].
    - left. exists (n_text n). split; [|exact H]. exists n. split; [apply A|reflexivity].
    - pose proof (at_child ns root rf OK _ i sys W S eq_refl) as B. unfold signal_length. destruct v4; [discriminate|]. destruct sys as [s|]; [|discriminate].
      apply bind_ok in H. destruct H as (sl & D & H). right. split; [reflexivity|]. split; [exact A|]. exists s. destruct B as (VB & B). split; [exact B|].
      destruct sl as [x|]; [|discriminate]. pose proof (at_child ns root rf OK _ s _ VB D eq_refl) as (_ & E). exists (n_text x). split; [|exact H]. now exists x.
  Qed.
  Lemma length_fun i a b : signal_length from_text from_hex ns root v4 i a -> signal_length from_text from_hex ns root v4 i b -> a = b.
  Proof.
    assert (X : forall z, int_at i ["LENGTH"] z -> nothing i ["LENGTH"] -> False) by (intros z (t & T & _) N; exact (text_nothing _ _ _ N T)).
    intros [I|(_ & N & s & S & I)] [I'|(_ & N' & s' & S' & I')]; [exact (int_fun _ _ _ _ I I')|now elim (X a)|now elim (X b)|].
    rewrite (only_fun ns root _ _ s s' S S') in I. exact (int_fun _ _ _ _ I I').
  Qed.
  Lemma type_ok i ty : valid i -> load_type ns rf i = Ok ty ->
    (fst ty = true <-> encoding ns root i "2C" \/ encoding ns root i "1C" \/ encoding ns root i "SM") /\ (snd ty = true <-> encoding ns root i "IEEE754").
  Proof.
    intros W H. unfold load_type in H. apply bind_ok in H. destruct H as (bt & C & H). pose proof (at_child ns root rf OK _ i bt W C eq_refl) as A.
    unfold encoding. set (l1 := ["NETWORK-REPRESENTATION-PROPS"; "SW-DATA-DEF-PROPS-VARIANTS"; "SW-DATA-DEF-PROPS-CONDITIONAL"; "BASE-TYPE"]) in *.
    change ["NETWORK-REPRESENTATION-PROPS"; "SW-DATA-DEF-PROPS-VARIANTS"; "SW-DATA-DEF-PROPS-CONDITIONAL"; "BASE-TYPE"; "BASE-TYPE-ENCODING"] with (l1 ++ ["BASE-TYPE-ENCODING"]).
    destruct bt as [b|].
    - destruct A as (VB & A). change (only i l1 b) in A. apply bind_ok in H. destruct H as (en & D & H). pose proof (at_child ns root rf OK _ b en VB D eq_refl) as B.
      destruct en as [e|]; [|now destruct (n_find ns "SHORT-NAME" b)]. destruct B as (_ & B). change (only b ["BASE-TYPE-ENCODING"] e) in B.
      assert (E : forall t, text_at i (l1 ++ ["BASE-TYPE-ENCODING"]) (txt t) <-> n_text e = txt t).
      { intros t. rewrite (text_app i l1 ["BASE-TYPE-ENCODING"] b (txt t) A). now apply text_only. }
      rewrite !E. rewrite <- !is_text_iff. destruct (is_text "2C" (n_text e) || is_text "1C" (n_text e) || is_text "SM" (n_text e)) eqn:S.
      + injection H as <-. cbn [fst snd]. split.
        * rewrite !orb_true_iff in S. tauto.
        * split; [discriminate|]. rewrite is_text_iff. intros X. rewrite X in S. discriminate.
      + injection H as <-. cbn [fst snd]. split; [|reflexivity]. rewrite !orb_false_iff in S. destruct S as ((-> & ->) & ->). split; [discriminate|]. intros [X|[X|X]]; discriminate.
    - injection H as <-. change (nothing i l1) in A. cbn. assert (N : forall t, ~ text_at i (l1 ++ ["BASE-TYPE-ENCODING"]) t) by (intros t; apply text_nothing; now apply nothing_app).
      split; (split; [discriminate|]); [intros [X|[X|X]]; destruct (N _ X)|intros X; destruct (N _ X)].
  Qed.
  Notation maps := (maps from_text from_hex ns root v4).
  Lemma maps_fun m p q : maps m p -> maps m q -> p = q.
  Proof.
    intros (i & name & O & T & N & PN & S & L & B & G & F & X & Y & Z) (i' & name' & O' & T' & N' & PN' & S' & L' & B' & G' & F' & X' & Y' & Z').
    rewrite (only_fun ns root _ _ i' i O' O) in *. destruct p, q; cbn in *. subst. f_equal.
    - now rewrite (name_fun i _ _ N N').
    - exact (int_fun _ _ _ _ S S').
    - exact (length_fun i _ _ L L').
    - apply bool_iff. now rewrite B, B'.
    - apply bool_iff. now rewrite G, G'.
    - apply bool_iff. now rewrite F, F'.
  Qed.
  Lemma new_place name st len big sg conv mn mx ini inv u c ch mux s : new_signal name st len big sg conv mn mx ini inv u c ch mux = Ok s ->
    a_sig s = mkSignal (to_string name) st len big sg conv mn mx mux None None /\ a_choices s = ch.
  Proof. unfold new_signal. intros H. apply bind_ok in H. destruct H as (x & _ & H). apply bind_ok in H. destruct H as (y & _ & H). injection H as <-. now split. Qed.
  Lemma either_bare l3 l4 : map bare (loc ver l4 l3) = either v4 (map bare l4) (map bare l3).
  Proof. unfold loc, either. now destruct v4. Qed.
  Lemma signal_ok m o : valid m -> load_signal from_text from_hex ns rf ver m = Ok o ->
    match o with Some s => maps m (place_of (a_sig s)) | None => forall p, ~ maps m p end.
  Proof.
    intros W H. unfold load_signal in H. apply bind_ok in H. destruct H as (io & C & H).
    assert (A : match io with Some i => valid i /\ only m (either v4 ["I-SIGNAL"] ["SIGNAL"]) i | None => nothing m (either v4 ["I-SIGNAL"] ["SIGNAL"]) end).
    { pose proof (at_child ns root rf OK (loc ver ["&I-SIGNAL"] ["&SIGNAL"]) m io W C ltac:(unfold loc; now destruct v4)) as A. rewrite either_bare in A. exact A. }
    destruct io as [i|].
    - destruct A as (VI & A). apply bind_ok in H. destruct H as (sys & S & H). pose proof (at_child ns root rf OK _ i sys VI S eq_refl) as B. cbn [map] in B. change (bare "&SYSTEM-SIGNAL") with "SYSTEM-SIGNAL" in B.
      destruct (match sys with Some s => negb (has_tag ns "SYSTEM-SIGNAL" s) | None => false end) eqn:T.
      + injection H as <-. intros p (i' & name & O & TT & _). rewrite (only_fun ns root _ _ i' i O A) in *. destruct sys as [s|]; [|discriminate]. apply negb_true_iff in T. apply tag_not in T. apply T. apply TT. apply B.
      + apply bind_ok in H. destruct H as (name & N & H). apply bind_ok in H. destruct H as (so & SO & H). apply bind_ok in H. destruct H as (start & ST & H).
        apply bind_ok in H. destruct H as (len & L & H). apply bind_ok in H. destruct H as (big & BG & H). apply bind_ok in H. destruct H as (ty & TY & H).
        apply bind_ok in H. destruct H as (((((((mn & mx) & fa) & of) & ch) & un) & com) & PH & H). apply bind_ok in H. destruct H as (ini & INI & H). apply bind_ok in H. destruct H as (inv & INV & H).
        apply bind_ok in H. destruct H as (conv & CV & H). apply bind_ok in H. destruct H as (s & NS & H). injection H as <-.
        destruct (new_place _ _ _ _ _ _ _ _ _ _ _ _ _ _ _ NS) as (E & _). rewrite E. unfold Prop_ArxmlPdu.maps. exists i, name. cbn [place_of pl_name pl_start pl_length pl_big pl_signed pl_float pl_is_mux pl_ids pl_sel s_name s_start s_length s_big s_signed s_conv s_is_mux s_mux_ids s_mux_sig].
        split; [exact A|]. split.
        { intros k K. destruct sys as [x|]; [|destruct (only_nothing ns root _ _ k K B)]. rewrite (only_fun ns root _ _ k x K (proj2 B)). apply tag_iff. now destruct (has_tag ns "SYSTEM-SIGNAL" x). }
        split; [now apply name_ok|]. split; [reflexivity|]. split; [exact (get_int m _ so start W SO eq_refl ST)|]. split; [exact (length_ok i sys len VI S L)|].
        split.
        { unfold load_big in BG. apply bind_ok in BG. destruct BG as (bo & BO & BG). injection BG as <-. exact (get_flag m _ bo _ W BO eq_refl). }
        destruct (type_ok i ty VI TY) as (T1 & T2). split; [exact T1|]. rewrite (factory_float _ _ _ _ _ CV). split; [exact T2|]. now repeat split.
    - injection H as <-. intros p (i & name & O & _). destruct (only_nothing ns root _ _ i O A).
  Qed.
  Lemma pdu_signals_ok pdu l : valid pdu -> load_pdu_signals from_text from_hex ns rf ver pdu = Ok l ->
    forall p, In p (map (fun s => place_of (a_sig s)) l) <-> exists m, mapping_of ns root v4 pdu m /\ maps m p.
  Proof.
    intros W H p. unfold load_pdu_signals in H. apply bind_ok in H. destruct H as (a & CA & H). apply bind_ok in H. destruct H as (b & CB & H). apply bind_ok in H. destruct H as (os & M & H). injection H as <-.
    assert (G : forallb good_atom (loc ver ["I-SIGNAL-TO-PDU-MAPPINGS"; "*&I-SIGNAL-TO-I-PDU-MAPPING"] ["SIGNAL-TO-PDU-MAPPINGS"; "*&I-SIGNAL-TO-I-PDU-MAPPING"]) = true) by (unfold loc; now destruct v4).
    assert (IN : forall m, In m (a ++ b) <-> mapping_of ns root v4 pdu m).
    { intros m. rewrite in_app_iff. rewrite (at_children ns root rf OK _ pdu a W CA G m), (at_children ns root rf OK _ pdu b W CB eq_refl m), either_bare. unfold mapping_of, either. now destruct v4. }
    assert (V : Forall valid (a ++ b)) by (apply Forall_app; split; [exact (children_valid ns root rf OK _ pdu a W CA G)|exact (children_valid ns root rf OK _ pdu b W CB eq_refl)]).
    rewrite Forall_forall in V. pose proof (mapM_nth _ _ _ M) as Z. rewrite in_map_iff. split.
    - intros (s & <- & I). apply in_flat_map in I. destruct I as (o & I & S). destruct o as [s'|]; [|destruct S]. destruct S as [->|[]].
      apply In_nth_error in I. destruct I as (k & I). apply (Z k) in I. destruct I as (m & J & E). apply nth_error_In in J. exists m. split; [now apply IN|]. exact (signal_ok m (Some s) (V m J) E).
    - intros (m & MP & MM). apply IN in MP. pose proof (V m MP) as VM. apply In_nth_error in MP. destruct MP as (k & K). apply (Z k) in K. destruct K as (o & K & E). pose proof (signal_ok m o VM E) as Q.
      destruct o as [s|]; [|destruct (Q p MM)]. exists s. split; [exact (maps_fun m _ _ Q MM)|]. apply in_flat_map. exists (Some s). split; [exact (nth_error_In _ _ K)|now left].
  Qed.

  (** *** PDUs *)
  Notation carried := (carried from_text from_hex ns root v4).
  Definition places (l : list asignal) : list place := map (fun s => place_of (a_sig s)) l.
  Lemma stands_iff n ref base a : valid n -> ref <> [] -> (absolute_path ns rf n ref base = Ok a <-> stands_for ns root (fst n) ref base a).
  Proof. destruct n as [p e]. intros W N. exact (absolute_ok ns root rf OK p e ref base a W N). Qed.
  Lemma absolute_nonempty n ref base a : absolute_path ns rf n ref base = Ok a -> ref <> [] /\ a <> [].
  Proof.
    unfold absolute_path, resolve. destruct ref as [|c r]; [discriminate|]. intros H. split; [discriminate|]. destruct (starts_with_slash (c :: r)); [now injection H as <-|].
    apply bind_ok in H. destruct H as (p & _ & H). destruct (closest ns rf (split_on slash p) base (List.length (split_on slash p))) as [t|]; [|discriminate]. injection H as <-. now destruct t.
  Qed.
  Lemma attr_get n a : attr_says (snd n) a (n_attr n a).
  Proof. now apply attr_iff. Qed.
  Lemma set_mux_place sel v s : place_of (a_sig (set_mux sel v s)) = depend sel v (place_of (a_sig s)).
  Proof. unfold set_mux, depend. cbn. destruct (s_mux_sig (a_sig s)) eqn:E; reflexivity. Qed.

  Section Step.
    Context (frame : chars) (load : node -> Z -> result pdu_load).
    Context (IH : forall q next r, valid q -> load q next = Ok r -> forall p, In p (places (p_signals r)) <-> carried frame q next p).
    Definition from_alternative (sel : string) (pos next : Z) (alt : node) (p : place) : Prop :=
      exists v q p', int_at alt ["SELECTOR-FIELD-CODE"] v /\ only alt ["I-PDU"] q /\ carried frame q next p' /\ pl_start p' <> pos /\ p = depend sel v p'.
    Lemma alternative_ok sel pos len next st alt st' : valid alt -> load_alternative from_text from_hex ns rf load sel pos len next st alt = Ok st' ->
      forall p, In p (places (x_signals st')) <-> In p (places (x_signals st)) \/ from_alternative sel pos next alt p.
    Proof.
      intros W H p. unfold load_alternative in H. apply bind_ok in H. destruct H as (vo & CV & H). apply bind_ok in H. destruct H as (v & V & H). apply bind_ok in H. destruct H as (po & CP & H).
      apply bind_ok in H. destruct H as (ro & _ & H). apply bind_ok in H. destruct H as (path & _ & H). apply bind_ok in H. destruct H as (r & L & H). apply bind_ok in H. destruct H as (io & _ & H). apply bind_ok in H. destruct H as (ini & _ & H).
      destruct po as [q|]; [|discriminate]. pose proof (get_int alt _ vo v W CV eq_refl V) as IV. destruct (at_child ns root rf OK _ alt _ W CP eq_refl) as (VQ & OQ).
      change (int_at alt ["SELECTOR-FIELD-CODE"] v) in IV. change (only alt ["I-PDU"] q) in OQ.
      destruct (filter (fun s => s_start (a_sig s) =? pos) (p_signals r)) as [|d [|? ?]]; [discriminate| |discriminate]. destruct (s_length (a_sig d) =? len); [|discriminate]. injection H as <-. cbn [x_signals].
      unfold places. rewrite map_app, in_app_iff. apply or_iff_compat_l. rewrite map_map, in_map_iff. split.
      - intros (s & <- & F). apply filter_In in F. destruct F as (I & NP). rewrite set_mux_place. exists v, q, (place_of (a_sig s)). split; [exact IV|]. split; [exact OQ|]. split.
        + apply (IH q next r VQ L). now apply (in_map (fun s => place_of (a_sig s))).
        + split; [|reflexivity]. cbn. rewrite negb_true_iff in NP. now apply Z.eqb_neq.
      - intros (v' & q' & p' & IV' & OQ' & C & NP & ->). rewrite <- (int_fun _ _ _ _ IV IV'). rewrite (only_fun ns root _ _ q' q OQ' OQ) in C. apply (IH q next r VQ L) in C. apply in_map_iff in C. destruct C as (s & <- & I).
        exists s. split; [apply set_mux_place|]. apply filter_In. split; [exact I|]. rewrite negb_true_iff. now apply Z.eqb_neq.
    Qed.
    Lemma alternatives_ok sel pos len next alts : Forall valid alts -> forall st st', foldM (load_alternative from_text from_hex ns rf load sel pos len next) alts st = Ok st' ->
      forall p, In p (places (x_signals st')) <-> In p (places (x_signals st)) \/ exists alt, In alt alts /\ from_alternative sel pos next alt p.
    Proof.
      induction 1 as [|alt alts W _ IHl]; intros st st' H p.
      - injection H as <-. split; [now left|]. intros [I|(a & [] & _)]. exact I.
      - cbn in H. apply bind_ok in H. destruct H as (s1 & H1 & H). rewrite (IHl s1 st' H p), (alternative_ok _ _ _ _ _ _ _ W H1 p). split.
        + intros [[I|F]|(a & I & F)]; [now left|right; exists alt; split; [now left|exact F]|right; exists a; split; [now right|exact F]].
        + intros [I|(a & [<-|I] & F)]; [left; now left|left; now right|right; now exists a].
    Qed.
    Lemma static_ok pdu next r out : valid pdu -> load_static ns rf load pdu next r = Ok out ->
      exists a a' q, x_text (snd r) <> [] /\ stands_for ns root (fst pdu) (x_text (snd r)) (n_attr r "BASE") a /\ stands_for ns root (fst pdu) a None a' /\ leads_to ns root a' (n_attr r "DEST") q /\
        forall p, In p (places (fst out)) <-> carried frame q next p.
    Proof.
      intros W H. unfold load_static in H. apply bind_ok in H. destruct H as (a & A & H). apply bind_ok in H. destruct H as (o & F & H). apply bind_ok in H. destruct H as (l & L & H). injection H as <-.
      destruct o as [q|]; [|discriminate]. unfold follow in F. apply bind_ok in F. destruct F as (a' & A' & F). injection F as F.
      destruct (absolute_nonempty _ _ _ _ A) as (N1 & N2). exists a, a', q. split; [exact N1|]. split; [now apply (stands_iff pdu _ _ _ W N1)|]. split; [now apply (stands_iff pdu _ _ _ W N2)|].
      apply (look_up_iff ns root rf OK) in F. split; [exact F|]. cbn [fst]. apply (IH q next l); [apply F|exact L].
    Qed.
    Lemma big_ok pdu bo big : valid pdu -> child pdu ["SELECTOR-FIELD-BYTE-ORDER"] = Ok bo ->
      match bo with None => Ok false | Some b => if is_text "MOST-SIGNIFICANT-BYTE-FIRST" (n_text b) then Ok true else if is_text "MOST-SIGNIFICANT-BYTE-LAST" (n_text b) then Ok false else Err AssertionError end = Ok big ->
      (big = true <-> text_at pdu ["SELECTOR-FIELD-BYTE-ORDER"] (txt "MOST-SIGNIFICANT-BYTE-FIRST")).
    Proof.
      intros W C H. rewrite <- (get_flag pdu _ bo "MOST-SIGNIFICANT-BYTE-FIRST" W C eq_refl). destruct bo as [b|]; [|injection H as <-; reflexivity].
      destruct (is_text "MOST-SIGNIFICANT-BYTE-FIRST" (n_text b)); [injection H as <-; reflexivity|]. destruct (is_text "MOST-SIGNIFICANT-BYTE-LAST" (n_text b)); [|discriminate]. injection H as <-. reflexivity.
    Qed.
    Lemma multiplexed_ok pdu next out : valid pdu -> ordinary ns pdu -> is_tag ns (txt "MULTIPLEXED-I-PDU") (snd pdu) -> load_multiplexed from_text from_hex ns rf ver load frame pdu next = Ok out ->
      forall p, (In p (places (fst (fst out))) \/ exists m, mapping_of ns root v4 pdu m /\ maps m p) <-> carried frame pdu next p.
    Proof.
      intros W O T H p. unfold load_multiplexed in H. apply bind_ok in H. destruct H as (po & CP & H). apply bind_ok in H. destruct H as (pos & P & H). apply bind_ok in H. destruct H as (lo & CL & H). apply bind_ok in H. destruct H as (len & L & H).
      apply bind_ok in H. destruct H as (bo & CB & H). apply bind_ok in H. destruct H as (big & B & H). apply bind_ok in H. destruct H as (alts & CA & H). apply bind_ok in H. destruct H as (st & F & H). apply bind_ok in H. destruct H as (conv & CV & H).
      apply bind_ok in H. destruct H as (sel & SE & H). apply bind_ok in H. destruct H as (refs & CR & H). apply bind_ok in H. destruct H as (statics & M & H). injection H as <-. cbn [fst].
      pose proof (get_int pdu _ po pos W CP eq_refl P) as IP. change (int_at pdu ["SELECTOR-FIELD-START-POSITION"] pos) in IP.
      pose proof (get_int pdu _ lo len W CL eq_refl L) as IL. change (int_at pdu ["SELECTOR-FIELD-LENGTH"] len) in IL. pose proof (big_ok pdu bo big W CB B) as IB.
      destruct (new_place _ _ _ _ _ _ _ _ _ _ _ _ _ _ _ SE) as (ES & _).
      assert (CF : conv_is_float conv = false) by (destruct (x_choices st); [now injection CV as <-|exact (factory_float _ _ _ _ _ CV)]).
      assert (G1 : forallb good_atom (loc ver ["DYNAMIC-PARTS"; "*DYNAMIC-PART"; "DYNAMIC-PART-ALTERNATIVES"; "*DYNAMIC-PART-ALTERNATIVE"] ["DYNAMIC-PART"; "DYNAMIC-PART-ALTERNATIVES"; "*DYNAMIC-PART-ALTERNATIVE"]) = true) by (unfold loc; now destruct v4).
      assert (G2 : forallb good_atom (loc ver ["STATIC-PARTS"; "*STATIC-PART"; "I-PDU-REF"] ["STATIC-PART"; "I-PDU-REF"]) = true) by (unfold loc; now destruct v4).
      pose proof (at_children ns root rf OK _ pdu alts W CA G1) as IA. rewrite either_bare in IA. pose proof (children_valid ns root rf OK _ pdu alts W CA G1) as VA.
      pose proof (at_children ns root rf OK _ pdu refs W CR G2) as IR. rewrite either_bare in IR.
      set (rest := x_signals st ++ List.concat (map fst statics)).
      set (sel' := mkASignal (a_sig sel) _ _ _ _ _ _ _ _).
      assert (PS : place_of (a_sig sel') = mkPlace (selector frame next) pos len big false false true None None).
      { subst sel'. cbn [a_sig]. rewrite ES. unfold place_of. cbn. now rewrite CF. }
      assert (ST : forall p, In p (places (List.concat (map fst statics))) <-> exists q, static_part ns root v4 pdu q /\ carried frame q (next + 1) p).
      { intros p'. unfold places. pose proof (mapM_nth _ _ _ M) as Z. rewrite in_map_iff. split.
        - intros (s & <- & I). apply in_concat in I. destruct I as (l & I & S). apply in_map_iff in I. destruct I as (o & <- & I). apply In_nth_error in I. destruct I as (k & I). apply (Z k) in I. destruct I as (r & R & E).
          apply nth_error_In in R. apply IR in R. destruct (static_ok pdu (next + 1) r o W E) as (a & a' & q & N & S1 & S2 & LT & Q). exists q. split.
          + exists r, (n_attr r "BASE"), (n_attr r "DEST"), a, a'. split; [exact R|]. split; [apply attr_get|]. split; [apply attr_get|]. now repeat split; try apply LT.
          + apply Q. now apply (in_map (fun s => place_of (a_sig s))).
        - intros (q & (r & base & dest & a & a' & R & A1 & A2 & N & S1 & S2 & LT) & C). apply IR in R. apply In_nth_error in R. destruct R as (k & R). apply (Z k) in R. destruct R as (o & R & E).
          destruct (static_ok pdu (next + 1) r o W E) as (b & b' & q' & _ & S1' & S2' & LT' & Q).
          rewrite <- (attr_fun _ _ _ _ A1 (attr_get r "BASE")) in S1'. rewrite <- (attr_fun _ _ _ _ A2 (attr_get r "DEST")) in LT'.
          apply (stands_iff pdu _ _ _ W N) in S1, S1'. rewrite S1 in S1'. injection S1' as <-. destruct (absolute_nonempty _ _ _ _ S1) as (_ & NA).
          apply (stands_iff pdu _ _ _ W NA) in S2, S2'. rewrite S2 in S2'. injection S2' as <-.
          apply (look_up_iff ns root rf OK) in LT, LT'. rewrite LT in LT'. injection LT' as <-. apply Q in C. apply in_map_iff in C. destruct C as (s & E2 & I). exists s. split; [exact E2|].
          apply in_concat. exists (fst o). split; [apply in_map; exact (nth_error_In _ _ R)|exact I]. }
      assert (AL : forall p, In p (places (x_signals st)) <-> exists alt, In alt alts /\ from_alternative (selector frame next) pos (next + 1) alt p).
      { intros p'. rewrite (alternatives_ok _ _ _ _ _ VA _ _ F p'). cbn. split; [intros [[]|X]; exact X|now right]. }
      assert (MX : multiplexed ns pdu) by now split.
      change (places (sel' :: rest)) with (place_of (a_sig sel') :: places rest). cbn [In]. rewrite PS. unfold rest, places at 1. rewrite map_app, in_app_iff.
      change (In p (map (fun s => place_of (a_sig s)) (x_signals st))) with (In p (places (x_signals st))). change (In p (map (fun s => place_of (a_sig s)) (List.concat (map fst statics)))) with (In p (places (List.concat (map fst statics)))).
      rewrite AL, ST. split.
      - intros [[<-|[(alt & I & v & q & p' & IV & OQ & C & NP & ->)|(q & S & C)]]|(m & MO & MM)].
        + now apply car_selector.
        + apply IA in I. apply (car_dynamic _ _ _ _ _ frame pdu next pos alt q v p' MX IP); assumption.
        + exact (car_static _ _ _ _ _ frame pdu next q p MX S C).
        + exact (car_signal _ _ _ _ _ frame pdu next m p O MO MM).
      - intros C. inversion C as [pdu' next' m p' O' MO MM|pdu' next' q p' O1 O2 OQ C'|pdu' next' pos' len' big' MX' IP' IL' IB'|pdu' next' pos' alt q v p' MX' IP' A IV OQ C' NP|pdu' next' q p' MX' S C']; subst.
        + right. now exists m.
        + destruct O. contradiction.
        + left. left. rewrite (int_fun _ _ _ _ IP IP'), (int_fun _ _ _ _ IL IL'). f_equal. apply bool_iff. now rewrite IB, IB'.
        + left. right. left. exists alt. split; [apply IA; unfold alternative, either in A |- *; now destruct v4|]. exists v, q, p'. repeat split; try assumption; try apply OQ. now rewrite (int_fun _ _ _ _ IP IP').
        + left. right. right. now exists q.
    Qed.
    Lemma step_ok sort pdu next r : valid pdu -> load_pdu_step from_text from_hex ns rf ver sort load frame pdu next = Ok r ->
      forall p, In p (places (p_signals r)) <-> carried frame pdu next p.
    Proof.
      intros W H p. unfold load_pdu_step in H. destruct (has_tag ns "CONTAINER-I-PDU" pdu) eqn:T1.
      { assert (E : p_signals r = []).
        { apply bind_ok in H. destruct H as (lo & _ & H). apply bind_ok in H. destruct H as (? & _ & H). apply bind_ok in H. destruct H as (ho & _ & H). apply bind_ok in H. destruct H as (ht & _ & H).
          destruct (is_text "SHORT-HEADER" ht); [|now injection H as <-]. apply bind_ok in H. destruct H as (cs & _ & H). apply bind_ok in H. destruct H as (l & _ & H). now injection H as <-. }
        rewrite E. apply tag_iff in T1. split; [intros []|]. intros C.
        inversion C as [pdu' next' m p' O' MO MM|pdu' next' q p' O1 O2 OQ C'|pdu' next' pos' len' big' MX' IP' IL' IB'|pdu' next' pos' alt q v p' MX' IP' A IV OQ C' NP|pdu' next' q p' MX' S C']; subst;
          [now destruct O'|contradiction|now destruct MX' as ((? & _) & _)|now destruct MX' as ((? & _) & _)|now destruct MX' as ((? & _) & _)]. }
      apply tag_not in T1. destruct (has_tag ns "SECURED-I-PDU" pdu) eqn:T2.
      { apply tag_iff in T2. apply bind_ok in H. destruct H as (pp & CP & H). destruct pp as [q|]; [|discriminate]. apply bind_ok in H. destruct H as (l & L & H). apply bind_ok in H. destruct H as (here & _ & H). injection H as <-. cbn [p_signals].
        unfold payload_of in CP. destruct (at_child ns root rf OK _ pdu _ W CP eq_refl) as (VQ & OQ). change (only pdu ["PAYLOAD"; "I-PDU"] q) in OQ. rewrite (IH q next l VQ L p). split.
        - intros C. exact (car_secured _ _ _ _ _ frame pdu next q p T1 T2 OQ C).
        - intros C. inversion C as [pdu' next' m p' O' MO MM|pdu' next' q' p' O1 O2 OQ' C'|pdu' next' pos' len' big' MX' IP' IL' IB'|pdu' next' pos' alt q' v p' MX' IP' A IV OQ' C' NP|pdu' next' q' p' MX' S C']; subst;
            [now destruct O'| |now destruct MX' as ((_ & ?) & _)|now destruct MX' as ((_ & ?) & _)|now destruct MX' as ((_ & ?) & _)]. now rewrite <- (only_fun ns root _ _ q' q OQ' OQ). }
      apply tag_not in T2. assert (O : ordinary ns pdu) by now split.
      apply bind_ok in H. destruct H as (lo & _ & H). apply bind_ok in H. destruct H as (? & _ & H). apply bind_ok in H. destruct H as (cyc & _ & H). apply bind_ok in H. destruct H as (sigs & S & H).
      pose proof (pdu_signals_ok pdu sigs W S) as PS. destruct (has_tag ns "MULTIPLEXED-I-PDU" pdu) eqn:T3.
      - apply tag_iff in T3. apply bind_ok in H. destruct H as (((ms & mc) & mp) & M & H). injection H as <-. cbn [p_signals]. rewrite <- (multiplexed_ok pdu next _ W O T3 M p). cbn [fst].
        unfold places at 1. rewrite map_app, in_app_iff, PS. unfold places. tauto.
      - apply tag_not in T3. injection H as <-. cbn [p_signals]. unfold places. rewrite PS. split.
        + intros (m & MO & MM). exact (car_signal _ _ _ _ _ frame pdu next m p O MO MM).
        + intros C. inversion C as [pdu' next' m p' O' MO MM|pdu' next' q p' O1 O2 OQ C'|pdu' next' pos' len' big' MX' IP' IL' IB'|pdu' next' pos' alt q v p' MX' IP' A IV OQ C' NP|pdu' next' q p' MX' S' C']; subst;
            [now exists m|contradiction|now destruct MX'|now destruct MX'|now destruct MX'].
    Qed.
  End Step.
  (** Exactly these signals are loaded for a PDU. *)
  Theorem C71_signals sort k frame pdu next r : valid pdu -> load_pdu from_text from_hex ns rf ver sort k frame pdu next = Ok r ->
    forall p, In p (places (p_signals r)) <-> carried frame pdu next p.
  Proof.
    revert pdu next r. induction k as [|k IH]; intros pdu next r W H; [discriminate|]. exact (step_ok frame _ (fun q next r V L => IH q next r V L) sort pdu next r W H).
  Qed.

  (** *** Behind the payload of secured PDUs *)
  Lemma first_bit_fun a b : first_bit a = first_bit b -> a = b.
  Proof.
    unfold first_bit. intros H. pose proof (Z.div_mod a 8 ltac:(lia)). pose proof (Z.div_mod b 8 ltac:(lia)).
    pose proof (Z.mod_pos_bound a 8 ltac:(lia)). pose proof (Z.mod_pos_bound b 8 ltac:(lia)). lia.
  Qed.
  Lemma fresh_bit len : first_bit (len * 8 + 7) = 8 * len.
  Proof. unfold first_bit. rewrite <- (Z.div_unique (len * 8 + 7) 8 len 7), <- (Z.mod_unique (len * 8 + 7) 8 len 7) by lia. lia. Qed.
  Lemma auth_bit len f : first_bit (len * 8 + f / 8 * 8 + (7 - f mod 8)) = 8 * len + f.
  Proof.
    unfold first_bit. pose proof (Z.div_mod f 8 ltac:(lia)). pose proof (Z.mod_pos_bound f 8 ltac:(lia)).
    rewrite <- (Z.div_unique _ 8 (len + f / 8) (7 - f mod 8)), <- (Z.mod_unique _ 8 (len + f / 8) (7 - f mod 8)) by lia. lia.
  Qed.
  Lemma pseudo_place name what suffix start len s : pseudo_signal name what suffix start len = Ok s ->
    place_of (a_sig s) = mkPlace (to_string (name ++ suffix)) start len true false false false None None.
  Proof. intros H. destruct (new_place _ _ _ _ _ _ _ _ _ _ _ _ _ _ _ H) as (-> & _). reflexivity. Qed.
  (** The freshness value follows the payload at once, and the authenticator follows the freshness value. *)
  Theorem C71_tail name pdu sp l sp' : valid pdu -> load_secured from_text from_hex ns rf name pdu sp = Ok (l, sp') ->
    forall p, In p (places l) <-> tail_signal from_text from_hex ns root name pdu p.
  Proof.
    intros W H p. unfold load_secured in H. apply bind_ok in H. destruct H as (pp & CP & H). apply bind_ok in H. destruct H as (pl & CL & H). apply bind_ok in H. destruct H as (len & L & H).
    apply bind_ok in H. destruct H as (e & _ & H). apply bind_ok in H. destruct H as (au & _ & H). apply bind_ok in H. destruct H as (fr & _ & H). apply bind_ok in H. destruct H as (di & _ & H). apply bind_ok in H. destruct H as (did & _ & H).
    apply bind_ok in H. destruct H as (ao & CA & H). apply bind_ok in H. destruct H as (auth & A & H). apply bind_ok in H. destruct H as (fl & _ & H). apply bind_ok in H. destruct H as (flen & _ & H).
    apply bind_ok in H. destruct H as (fo & CF & H). apply bind_ok in H. destruct H as (fresh & F & H). apply bind_ok in H. destruct H as (fs & FS & H). apply bind_ok in H. destruct H as (as_ & AS & H). injection H as <- <-.
    destruct pp as [q|]; [|discriminate]. unfold payload_of in CP. destruct (at_child ns root rf OK _ pdu _ W CP eq_refl) as (VQ & OQ). change (only pdu ["PAYLOAD"; "I-PDU"] q) in OQ. cbn [child_exn] in CL.
    pose proof (get_int q _ pl len VQ CL eq_refl L) as IL. change (int_at q ["LENGTH"] len) in IL.
    pose proof (get_opt_int pdu _ ao auth W CA eq_refl A) as IA. change (opt_int_at pdu ["AUTHENTICATION-PROPS"; "AUTH-INFO-TX-LENGTH"] auth) in IA.
    pose proof (get_opt_int pdu _ fo fresh W CF eq_refl F) as IF. change (opt_int_at pdu ["FRESHNESS-PROPS"; "FRESHNESS-VALUE-TX-LENGTH"] fresh) in IF.
    assert (UNI : forall q' len' f' , only pdu ["PAYLOAD"; "I-PDU"] q' -> int_at q' ["LENGTH"] len' -> int_at pdu ["FRESHNESS-PROPS"; "FRESHNESS-VALUE-TX-LENGTH"] f' -> len' = len /\ fresh = Some f').
    { intros q' len' f' OQ' IL' IF'. rewrite (only_fun ns root _ _ q' q OQ' OQ) in IL'. split; [exact (int_fun _ _ _ _ IL' IL)|]. destruct fresh as [f|]; [now rewrite (int_fun _ _ _ _ IF IF')|].
      exfalso. destruct IF' as (t & T & _). exact (text_nothing _ _ _ IF T). }
    assert (UNA : forall a', int_at pdu ["AUTHENTICATION-PROPS"; "AUTH-INFO-TX-LENGTH"] a' -> auth = Some a').
    { intros a' IA'. destruct auth as [a|]; [now rewrite (int_fun _ _ _ _ IA IA')|]. exfalso. destruct IA' as (t & T & _). exact (text_nothing _ _ _ IA T). }
    unfold places. rewrite map_app, in_app_iff. split.
    - intros [I|I].
      + unfold freshness_signals in FS. destruct fresh as [f|]; [|injection FS as <-; destruct I]. destruct (0 <? f) eqn:Q; [|injection FS as <-; destruct I]. apply bind_ok in FS. destruct FS as (s & S & FS). injection FS as <-.
        destruct I as [<-|[]]. rewrite (pseudo_place _ _ _ _ _ _ S). exists q, len, f. cbn. repeat (split; [assumption || reflexivity|]). left. split; [now apply Z.ltb_lt|]. split; [reflexivity|]. split; [apply fresh_bit|reflexivity].
      + unfold authenticator_signals in AS. destruct auth as [a|]; [|injection AS as <-; destruct I]. destruct (0 <? a) eqn:Q; [|injection AS as <-; destruct I]. destruct fresh as [f|]; [|discriminate]. apply bind_ok in AS. destruct AS as (s & S & AS). injection AS as <-.
        destruct I as [<-|[]]. rewrite (pseudo_place _ _ _ _ _ _ S). exists q, len, f. cbn -[first_bit]. repeat (split; [assumption || reflexivity|]). right. exists a. split; [exact IA|]. split; [now apply Z.ltb_lt|]. split; [reflexivity|]. split; [apply auth_bit|reflexivity].
    - intros (q' & len' & f' & OQ' & IL' & IF' & B & SG & FL & MX & ID & SE & [(P & N & ST & LN)|(a' & IA' & P & N & ST & LN)]); destruct (UNI q' len' f' OQ' IL' IF') as (-> & ->); destruct p as [pn ps pl' pb psg pf pm pid pse]; cbn in B, SG, FL, MX, ID, SE, N, LN, ST; subst.
      + left. unfold freshness_signals in FS. rewrite (proj2 (Z.ltb_lt 0 f') P) in FS. apply bind_ok in FS. destruct FS as (s & S & FS). injection FS as <-. left. rewrite (pseudo_place _ _ _ _ _ _ S).
        f_equal. apply first_bit_fun. rewrite fresh_bit. symmetry. exact ST.
      + right. rewrite (UNA a' IA') in AS. unfold authenticator_signals in AS. rewrite (proj2 (Z.ltb_lt 0 a') P) in AS. apply bind_ok in AS. destruct AS as (s & S & AS). injection AS as <-. left. rewrite (pseudo_place _ _ _ _ _ _ S).
        f_equal. apply first_bit_fun. rewrite auth_bit. symmetry. exact ST.
  Qed.
End Proofs.

(** ** Concrete cases *)
Definition ref_el (t dest x : string) : xml := el t [("DEST", dest)] x [].
Definition i_signal (name len : string) (more : list xml) : xml := named_el "I-SIGNAL" name (leaf "LENGTH" len :: more).
Definition mapping (signal start order : string) : xml :=
  named_el "I-SIGNAL-TO-I-PDU-MAPPING" ("Map" ++ start)
    [ref_el "I-SIGNAL-REF" "I-SIGNAL" ("/P/" ++ signal); leaf "PACKING-BYTE-ORDER" order; leaf "START-POSITION" start].
Definition first := "MOST-SIGNIFICANT-BYTE-FIRST".
Definition last_ := "MOST-SIGNIFICANT-BYTE-LAST".
Definition header (id : string) : xml := el "CONTAINED-I-PDU-PROPS" [] "" [leaf "HEADER-ID-SHORT-HEADER" id].
Definition pdu_el (name len : string) (more maps : list xml) : xml :=
  named_el "I-SIGNAL-I-PDU" name (leaf "LENGTH" len :: more ++ [el "I-SIGNAL-TO-PDU-MAPPINGS" [] "" maps]).
Definition timing (t : string) : xml :=
  el "I-PDU-TIMING-SPECIFICATIONS" [] "" [el "I-PDU-TIMING" [] "" [el "TRANSMISSION-MODE-DECLARATION" [] "" [el "TRANSMISSION-MODE-TRUE-TIMING" [] ""
    [el "CYCLIC-TIMING" [] "" [el "TIME-PERIOD" [] "" [leaf "VALUE" t]]]]]].
Definition alternative_el (code pdu : string) : xml :=
  el "DYNAMIC-PART-ALTERNATIVE" [] "" [ref_el "I-PDU-REF" "I-SIGNAL-I-PDU" pdu; leaf "SELECTOR-FIELD-CODE" code].
Definition mux_el (name len pos size order : string) (alternatives statics : list xml) : xml :=
  named_el "MULTIPLEXED-I-PDU" name [leaf "LENGTH" len;
    el "DYNAMIC-PARTS" [] "" [el "DYNAMIC-PART" [] "" [el "DYNAMIC-PART-ALTERNATIVES" [] "" alternatives]];
    leaf "SELECTOR-FIELD-BYTE-ORDER" order; leaf "SELECTOR-FIELD-LENGTH" size; leaf "SELECTOR-FIELD-START-POSITION" pos;
    el "STATIC-PARTS" [] "" (map (fun p => el "STATIC-PART" [] "" [p]) statics)].
Definition secured_el (name : string) (more : list xml) (payload fresh auth : string) : xml :=
  named_el "SECURED-I-PDU" name (leaf "LENGTH" "8" :: more ++ [ref_el "PAYLOAD-REF" "PDU-TRIGGERING" payload;
    ref_el "FRESHNESS-PROPS-REF" "SECURE-COMMUNICATION-FRESHNESS-PROPS" fresh;
    ref_el "AUTHENTICATION-PROPS-REF" "SECURE-COMMUNICATION-AUTHENTICATION-PROPS" auth]).
(** The elements of a package P.  The signal A is signed, F is a floating point number, and the system signal of A has
    another name.  Mux has a selector of four bits, two alternatives and a static part; Sec secures Plain. *)
Definition sys_elements : list xml :=
  [ named_el "SYSTEM-SIGNAL" "SysA" [];
    named_el "SW-BASE-TYPE" "S8" [leaf "BASE-TYPE-ENCODING" "2C"]; named_el "SW-BASE-TYPE" "F32" [leaf "BASE-TYPE-ENCODING" "IEEE754"];
    i_signal "A" "8" [ref_el "SYSTEM-SIGNAL-REF" "SYSTEM-SIGNAL" "/P/SysA"; el "NETWORK-REPRESENTATION-PROPS" [] "" [el "SW-DATA-DEF-PROPS-VARIANTS" [] ""
      [el "SW-DATA-DEF-PROPS-CONDITIONAL" [] "" [ref_el "BASE-TYPE-REF" "SW-BASE-TYPE" "/P/S8"]]]];
    i_signal "F" "32" [el "NETWORK-REPRESENTATION-PROPS" [] "" [el "SW-DATA-DEF-PROPS-VARIANTS" [] ""
      [el "SW-DATA-DEF-PROPS-CONDITIONAL" [] "" [ref_el "BASE-TYPE-REF" "SW-BASE-TYPE" "/P/F32"]]]];
    i_signal "B" "0x10" []; i_signal "C" "4" []; i_signal "Sel" "4" [];
    pdu_el "Plain" "5" [header "0x11"; timing "0.5"] [mapping "A" "0" last_; mapping "F" "15" first];
    pdu_el "Alt1" "4" [] [mapping "Sel" "0" last_; mapping "C" "4" last_];
    pdu_el "Alt2" "4" [] [mapping "Sel" "0" last_; mapping "B" "15" first];
    pdu_el "Rest" "4" [] [mapping "A" "24" last_];
    mux_el "Mux" "4" "0" "4" last_ [alternative_el "1" "/P/Alt1"; alternative_el "2" "/P/Alt2"] [ref_el "I-PDU-REF" "I-SIGNAL-I-PDU" "/P/Rest"];
    named_el "SECURE-COMMUNICATION-FRESHNESS-PROPS" "Fr" [leaf "FRESHNESS-VALUE-LENGTH" "64"; leaf "FRESHNESS-VALUE-TX-LENGTH" "4"];
    named_el "SECURE-COMMUNICATION-AUTHENTICATION-PROPS" "Au" [leaf "AUTH-INFO-TX-LENGTH" "20"];
    secured_el "Sec" [header "18"; leaf "UNUSED-BIT-PATTERN" "0"] "/P/Bus/Ch/PlainTrig" "/P/Fr" "/P/Au";
    named_el "CONTAINER-I-PDU" "Box" [leaf "LENGTH" "64"; leaf "HEADER-TYPE" "SHORT-HEADER";
      el "CONTAINED-PDU-TRIGGERING-REFS" [] "" [ref_el "CONTAINED-PDU-TRIGGERING-REF" "PDU-TRIGGERING" "/P/Bus/Ch/PlainTrig"; ref_el "CONTAINED-PDU-TRIGGERING-REF" "PDU-TRIGGERING" "/P/Bus/Ch/SecTrig"]];
    named_el "CAN-FRAME" "FMux" [leaf "FRAME-LENGTH" "4"; el "PDU-TO-FRAME-MAPPINGS" [] "" [named_el "PDU-TO-FRAME-MAPPING" "M" [ref_el "PDU-REF" "MULTIPLEXED-I-PDU" "/P/Mux"]]];
    named_el "CAN-FRAME" "FSec" [leaf "FRAME-LENGTH" "8"; el "PDU-TO-FRAME-MAPPINGS" [] "" [named_el "PDU-TO-FRAME-MAPPING" "M" [ref_el "PDU-REF" "SECURED-I-PDU" "/P/Sec"]]];
    named_el "CAN-FRAME" "FBox" [leaf "FRAME-LENGTH" "64"; el "PDU-TO-FRAME-MAPPINGS" [] "" [named_el "PDU-TO-FRAME-MAPPING" "M" [ref_el "PDU-REF" "CONTAINER-I-PDU" "/P/Box"]]];
    named_el "CAN-CLUSTER" "Bus" [el "CAN-CLUSTER-VARIANTS" [] "" [el "CAN-CLUSTER-CONDITIONAL" [] "" [leaf "BAUDRATE" "500000"; leaf "CAN-FD-BAUDRATE" "2000000";
      el "PHYSICAL-CHANNELS" [] "" [named_el "CAN-PHYSICAL-CHANNEL" "Ch" [
        el "FRAME-TRIGGERINGS" [] "" [
          named_el "CAN-FRAME-TRIGGERING" "T1" [ref_el "FRAME-REF" "CAN-FRAME" "/P/FMux"; leaf "CAN-ADDRESSING-MODE" "STANDARD"; leaf "IDENTIFIER" "5"];
          named_el "CAN-FRAME-TRIGGERING" "T2" [ref_el "FRAME-REF" "CAN-FRAME" "/P/FSec"; leaf "CAN-ADDRESSING-MODE" "EXTENDED"; leaf "IDENTIFIER" "100000"];
          named_el "CAN-FRAME-TRIGGERING" "T3" [ref_el "FRAME-REF" "CAN-FRAME" "/P/FBox"; leaf "CAN-FRAME-TX-BEHAVIOR" "CAN-FD"; leaf "IDENTIFIER" "7"]];
        el "PDU-TRIGGERINGS" [] "" [
          named_el "PDU-TRIGGERING" "PlainTrig" [ref_el "I-PDU-REF" "I-SIGNAL-I-PDU" "/P/Plain"];
          named_el "PDU-TRIGGERING" "SecTrig" [ref_el "I-PDU-REF" "SECURED-I-PDU" "/P/Sec"]]]]]]];
    named_el "ECU-INSTANCE" "Ecu1" [el "ASSOCIATED-COM-I-PDU-GROUP-REFS" [] "" [ref_el "ASSOCIATED-COM-I-PDU-GROUP-REF" "I-SIGNAL-I-PDU-GROUP" "/P/Out"]];
    named_el "ECU-INSTANCE" "Ecu2" [el "ASSOCIATED-COM-I-PDU-GROUP-REFS" [] "" [ref_el "ASSOCIATED-COM-I-PDU-GROUP-REF" "I-SIGNAL-I-PDU-GROUP" "/P/In"]];
    named_el "I-SIGNAL-I-PDU-GROUP" "Out" [leaf "COMMUNICATION-DIRECTION" "OUT"; el "I-SIGNAL-I-PDUS" [] "" [el "I-SIGNAL-I-PDU-REF-CONDITIONAL" [] "" [ref_el "I-SIGNAL-I-PDU-REF" "I-SIGNAL-I-PDU" "/P/Plain"]]];
    named_el "I-SIGNAL-I-PDU-GROUP" "In" [leaf "COMMUNICATION-DIRECTION" "IN"; el "I-SIGNAL-I-PDUS" [] "" [el "I-SIGNAL-I-PDU-REF-CONDITIONAL" [] "" [ref_el "I-SIGNAL-I-PDU-REF" "I-SIGNAL-I-PDU" "/P/Plain"];
      el "I-SIGNAL-I-PDU-REF-CONDITIONAL" [] "" [ref_el "I-SIGNAL-I-PDU-REF" "I-SIGNAL-I-PDU" "/P/Alt2"]]] ].
Definition sys_doc (elements : list xml) : xml := el "AUTOSAR" [] "" [el "AR-PACKAGES" [] "" [named_el "AR-PACKAGE" "P" [el "ELEMENTS" [] "" elements]]].
Definition sys_root : xml := sys_doc sys_elements.
Definition refs_of (root : xml) : refs := match reference_dicts ex_ns root with Ok r => r | Err _ => no_refs end.
Definition sys_rf : refs := refs_of sys_root.
(** The element number k of the package *)
Definition element_at (root : xml) (k : nat) : node :=
  let p := [0; 0; 1; k]%nat in (p, match elem_at root p with Some e => e | None => root end).
Definition mux_node : node := element_at sys_root 12.
Definition sec_node : node := element_at sys_root 15.
Definition box_node : node := element_at sys_root 16.
Definition v40 : version := (4, 0, 0).
Lemma sys_ok : reference_dicts ex_ns sys_root = Ok sys_rf.
Proof. vm_compute. reflexivity. Qed.
Lemma mux_valid : valid sys_root mux_node.
Proof. vm_compute. reflexivity. Qed.
Lemma sec_valid : valid sys_root sec_node.
Proof. vm_compute. reflexivity. Qed.
Definition placed (r : result pdu_load) : result (list place) := match r with Ok r => Ok (places (p_signals r)) | Err e => Err e end.
(** A multiplexed PDU with two alternatives and a static part, and one of its signals as the specification has it *)
Example C71_signals_hypotheses : reference_dicts ex_ns sys_root = Ok sys_rf /\ valid sys_root mux_node /\
  placed (load_pdu ex_float ex_hex ex_ns sys_rf v40 SortDefault 3 (txt "M") mux_node 1) = Ok
    [mkPlace "M_selector1" 0 4 false false false true None None; mkPlace "C" 4 4 false false false false (Some [1]) (Some "M_selector1");
     mkPlace "B" 15 16 true false false false (Some [2]) (Some "M_selector1"); mkPlace "A" 24 8 false true false false None None] /\
  carried ex_float ex_hex ex_ns sys_root true (txt "M") mux_node 1 (mkPlace "B" 15 16 true false false false (Some [2]) (Some "M_selector1")).
Proof.
  split; [exact sys_ok|]. split; [exact mux_valid|].
  assert (L : placed (load_pdu ex_float ex_hex ex_ns sys_rf v40 SortDefault 3 (txt "M") (fst mux_node, snd mux_node) 1) = Ok
    [mkPlace "M_selector1" 0 4 false false false true None None; mkPlace "C" 4 4 false false false false (Some [1]) (Some "M_selector1");
     mkPlace "B" 15 16 true false false false (Some [2]) (Some "M_selector1"); mkPlace "A" 24 8 false true false false None None]) by (vm_compute; reflexivity).
  split; [exact L|]. unfold placed in L. destruct (load_pdu ex_float ex_hex ex_ns sys_rf v40 SortDefault 3 (txt "M") (fst mux_node, snd mux_node) 1) as [r|] eqn:E; [|discriminate].
  apply (C71_signals ex_float ex_hex ex_ns sys_root sys_rf sys_ok v40 SortDefault 3 (txt "M") (fst mux_node, snd mux_node) 1 r mux_valid E). injection L as ->. cbn. tauto.
Qed.
Definition tail_placed (r : result (list asignal * specifics)) : result (list place) := match r with Ok r => Ok (places (fst r)) | Err e => Err e end.
(** A payload of 5 bytes, 4 bits of the freshness value and 20 bits of the authenticator *)
Example C71_tail_hypotheses : valid sys_root sec_node /\
  tail_placed (load_secured ex_float ex_hex ex_ns sys_rf (txt "M") sec_node no_specifics) =
    Ok [mkPlace "M_Freshness" 47 4 true false false false None None; mkPlace "M_Authenticator" 43 20 true false false false None None] /\
  first_bit 47 = 8 * 5 /\ first_bit 43 = 8 * 5 + 4.
Proof. split; [exact sec_valid|]. split; [vm_compute; reflexivity|]. split; reflexivity. Qed.

(** "A signal is called after its system signal" is what 1532-1542 mean to do, but the test for a name counts the elements
    in it: the signal A of the document has the system signal SysA. *)
Theorem C71_name_refuted : exists root rf pdu m i r,
  reference_dicts ex_ns root = Ok rf /\ valid root pdu /\ mapping_of ex_ns root true pdu m /\
  only ex_ns root m ["I-SIGNAL"] i /\ text_at ex_ns root i ["SYSTEM-SIGNAL"; "SHORT-NAME"] (txt "SysA") /\
  load_pdu ex_float ex_hex ex_ns rf v40 SortDefault 3 (txt "M") pdu 1 = Ok r /\ map pl_name (places (p_signals r)) = ["A"].
Proof.
  set (rest := element_at sys_root 11). set (m := ([0; 0; 1; 11; 2; 0]%nat, match elem_at sys_root [0; 0; 1; 11; 2; 0]%nat with Some e => e | None => sys_root end)).
  set (i := element_at sys_root 3).
  destruct (load_pdu ex_float ex_hex ex_ns sys_rf v40 SortDefault 3 (txt "M") (fst rest, snd rest) 1) as [r|] eqn:E; [|vm_compute in E; discriminate].
  exists sys_root, sys_rf, rest, m, i, r.
  assert (V : valid sys_root rest) by (vm_compute; reflexivity). assert (VM : valid sys_root m) by (vm_compute; reflexivity). assert (VI : valid sys_root i) by (vm_compute; reflexivity).
  split; [exact sys_ok|]. split; [exact V|].
  assert (CM : children ex_ns sys_rf (fst rest, snd rest) ["I-SIGNAL-TO-PDU-MAPPINGS"; "*I-SIGNAL-TO-I-PDU-MAPPING"] = Ok [m]) by (vm_compute; reflexivity).
  assert (CI : child ex_ns sys_rf (fst m, snd m) ["&I-SIGNAL"] = Ok (Some i)) by (vm_compute; reflexivity).
  assert (CN : child ex_ns sys_rf (fst i, snd i) ["&SYSTEM-SIGNAL"; "SHORT-NAME"] = Ok (Some (fst (element_at sys_root 0) ++ [0%nat], leaf "SHORT-NAME" "SysA"))) by (vm_compute; reflexivity).
  split; [left; apply (at_children ex_ns sys_root sys_rf sys_ok _ (fst rest, snd rest) _ V CM eq_refl); now left|].
  split; [exact (proj2 (at_child ex_ns sys_root sys_rf sys_ok _ (fst m, snd m) _ VM CI eq_refl))|].
  split; [|split; [exact E|]].
  - eexists. split; [exact (proj2 (at_child ex_ns sys_root sys_rf sys_ok _ (fst i, snd i) _ VI CN eq_refl))|]. vm_compute. reflexivity.
  - assert (P : placed (load_pdu ex_float ex_hex ex_ns sys_rf v40 SortDefault 3 (txt "M") (fst rest, snd rest) 1) = Ok [mkPlace "A" 24 8 false true false false None None]) by (vm_compute; reflexivity).
    rewrite E in P. cbn in P. injection P as ->. reflexivity.
Qed.
(** "The selectors of a frame have different names" fails: the alternatives of a multiplexed PDU are numbered alike. *)
Definition nested_elements : list xml :=
  [ i_signal "C" "4" []; i_signal "Sel" "4" []; i_signal "Sub" "4" [];
    pdu_el "Key" "4" [] [mapping "Sel" "0" last_];
    pdu_el "X1" "4" [] [mapping "Sub" "4" last_; mapping "C" "8" last_];
    pdu_el "X2" "4" [] [mapping "Sub" "12" last_; mapping "C" "16" last_];
    mux_el "In1" "4" "4" "4" last_ [alternative_el "7" "/P/X1"] [ref_el "I-PDU-REF" "I-SIGNAL-I-PDU" "/P/Key"];
    mux_el "In2" "4" "12" "4" last_ [alternative_el "8" "/P/X2"] [ref_el "I-PDU-REF" "I-SIGNAL-I-PDU" "/P/Key"];
    mux_el "Out" "4" "0" "4" last_ [el "DYNAMIC-PART-ALTERNATIVE" [] "" [ref_el "I-PDU-REF" "MULTIPLEXED-I-PDU" "/P/In1"; leaf "SELECTOR-FIELD-CODE" "1"];
      el "DYNAMIC-PART-ALTERNATIVE" [] "" [ref_el "I-PDU-REF" "MULTIPLEXED-I-PDU" "/P/In2"; leaf "SELECTOR-FIELD-CODE" "2"]] [] ].
Definition nested_root : xml := sys_doc nested_elements.
Theorem C71_selectors_refuted : reference_dicts ex_ns nested_root = Ok (refs_of nested_root) /\ valid nested_root (element_at nested_root 8) /\
  placed (load_pdu ex_float ex_hex ex_ns (refs_of nested_root) v40 SortDefault 3 (txt "M") (element_at nested_root 8) 1) = Ok
    [mkPlace "M_selector1" 0 4 false false false true None None;
     mkPlace "M_selector2" 4 4 false false false true (Some [1]) (Some "M_selector1"); mkPlace "C" 8 4 false false false false (Some [7]) (Some "M_selector2");
     mkPlace "M_selector2" 12 4 false false false true (Some [2]) (Some "M_selector1"); mkPlace "C" 16 4 false false false false (Some [8]) (Some "M_selector2")].
Proof. split; [vm_compute; reflexivity|]. split; [vm_compute; reflexivity|]. vm_compute. reflexivity. Qed.
(** "The authenticator is placed whether or not a freshness value is sent" fails: without the length of the freshness value
    the loader stops with a TypeError. *)
Definition stale_elements : list xml :=
  [ i_signal "A" "8" []; pdu_el "Plain" "1" [] [mapping "A" "0" last_]; named_el "PDU-TRIGGERING" "T" [ref_el "I-PDU-REF" "I-SIGNAL-I-PDU" "/P/Plain"];
    named_el "SECURE-COMMUNICATION-FRESHNESS-PROPS" "Fr" []; named_el "SECURE-COMMUNICATION-AUTHENTICATION-PROPS" "Au" [leaf "AUTH-INFO-TX-LENGTH" "20"];
    secured_el "Sec" [] "/P/T" "/P/Fr" "/P/Au" ].
Theorem C71_authenticator_refuted : reference_dicts ex_ns (sys_doc stale_elements) = Ok (refs_of (sys_doc stale_elements)) /\
  load_secured ex_float ex_hex ex_ns (refs_of (sys_doc stale_elements)) (txt "M") (element_at (sys_doc stale_elements) 5) no_specifics = Err TypeError.
Proof. split; vm_compute; reflexivity. Qed.
