(** Prop_ArxmlSafety: property C75, the end-to-end protection and the authentication of the messages of an ARXML system
    file. *)
From Coq Require Import Ascii Floats.SpecFloat.
From Verif Require Import Base PyNum Conversion Signal Message DictLemmas MsgThms Construct CSource CNames Regex DbcToken DbcTables Logreader DecodeCmd Xml Arxml ArxmlLoad Prop_Arxml ArxmlReach Prop_ArxmlNum Prop_ArxmlPdu Prop_ArxmlMsg Prop_ArxmlLinks.
Local Open Scope string_scope.
Local Open Scope Z_scope.
Local Open Scope list_scope.

(** ** What a file says about the protection of messages *)
(** Here the order of the elements matters. *)
Section Order.
  Context (ns : chars) (root : xml).
  Notation is_tag t n := (is_tag ns t (snd n)).
  Definition kids_in_order (n : node) (ks : list node) : Prop := forall i m, nth_error ks i = Some m <-> is_kid n i m.
  (** What a child counts for: itself, what it refers to, or nothing *)
  Definition counts (n : node) (a : string) (c : node) (part : list node) : Prop :=
    is_tag (txt a) c /\ part = [c] \/ is_tag (txt a ++ txt "-REF") c /\ (exists m, refers ns root n c m /\ part = [m]) \/
    ~ is_tag (txt a) c /\ ~ is_tag (txt a ++ txt "-REF") c /\ part = [].
  (** The elements at a place in order *)
  Fixpoint listed (n : node) (names : list string) (out : list node) : Prop :=
    match names with
    | [] => out = [n]
    | a :: r => exists ks parts outs, kids_in_order n ks /\ Forall2 (counts n a) ks parts /\ Forall2 (fun m o => listed m r o) (List.concat parts) outs /\ out = List.concat outs
    end.
End Order.
Section Spec.
  Context (from_text : chars -> option spec_float) (from_hex : chars -> result spec_float) (ns : chars) (root : xml) (v4 : bool).
  Notation only := (only ns root).
  Notation nothing := (nothing ns root).
  Notation int_at := (int_at from_text from_hex ns root).
  Notation opt_int_at := (opt_int_at from_text from_hex ns root).
  Notation opt_text_at := (opt_text_at ns root).
  Notation listed := (listed ns root).
  Notation is_tag t n := (is_tag ns (txt t) (snd n)).
  Notation either := (either v4).

  Definition data_ids (n : node) (ids : list Z) : Prop := exists ds, listed n ["DATA-IDS"; "DATA-ID"] ds /\ Forall2 (fun d z => int_at d [] z) ds ids.
  (** The last signal group of a PDU may say how it is protected *)
  Definition group_protection (pdu : node) (o : option e2e) : Prop :=
    exists gs, listed pdu ["I-SIGNAL-TO-PDU-MAPPINGS"; "I-SIGNAL-TO-I-PDU-MAPPING"; "I-SIGNAL-GROUP"] gs /\
      (gs = [] /\ o = None \/ exists front g, gs = front ++ [g] /\
        let place := ["TRANSFORMATION-I-SIGNAL-PROPSS"; "END-TO-END-TRANSFORMATION-I-SIGNAL-PROPS"; "END-TO-END-TRANSFORMATION-I-SIGNAL-PROPS-VARIANTS"; "END-TO-END-TRANSFORMATION-I-SIGNAL-PROPS-CONDITIONAL"] in
        (nothing g place /\ o = None \/
         exists t e, only g place t /\ o = Some e /\ opt_text_at t ["TRANSFORMER"; "TRANSFORMATION-DESCRIPTIONS"; "END-TO-END-TRANSFORMATION-DESCRIPTION"; "PROFILE-NAME"] (e_category e) /\
           data_ids t (e_ids e) /\ int_at pdu ["LENGTH"] (e_length e))).
  (** For a secured PDU, else that of the payload *)
  Definition own_protection (pdu : node) (o : option e2e) : Prop :=
    exists g, group_protection pdu g /\
      match g with
      | Some _ => o = g
      | None => is_tag "SECURED-I-PDU" pdu /\ (exists q, only pdu ["PAYLOAD"; "I-PDU"] q /\ group_protection q o) \/ ~ is_tag "SECURED-I-PDU" pdu /\ o = None
      end.
  (** How a PDU is authenticated *)
  Definition authentication (pdu : node) (o : option secoc) : Prop :=
    match o with
    | None => ~ is_tag "SECURED-I-PDU" pdu
    | Some s => is_tag "SECURED-I-PDU" pdu /\ opt_text_at pdu ["AUTHENTICATION-PROPS"; "SHORT-NAME"] (so_auth s) /\ opt_text_at pdu ["FRESHNESS-PROPS"; "SHORT-NAME"] (so_fresh s) /\
        (exists q, only pdu ["PAYLOAD"; "I-PDU"] q /\ int_at q ["LENGTH"] (so_payload s)) /\ opt_int_at pdu ["SECURE-COMMUNICATION-PROPS"; "DATA-ID"] (so_data_id s) /\
        opt_int_at pdu ["FRESHNESS-PROPS"; "FRESHNESS-VALUE-LENGTH"] (so_fresh_len s) /\ opt_int_at pdu ["FRESHNESS-PROPS"; "FRESHNESS-VALUE-TX-LENGTH"] (so_fresh_tx s) /\
        opt_int_at pdu ["AUTHENTICATION-PROPS"; "AUTH-INFO-TX-LENGTH"] (so_auth_tx s)
    end.

  (** The packages of a file in order *)
  Inductive preorder : list node -> list node -> Prop :=
  | pre_nil : preorder [] []
  | pre_cons p ps subs inner rest : (exists l, first_kid ns (either "AR-PACKAGES" "SUB-PACKAGES") p l /\ kids_in_order l subs) \/ (forall l, ~ first_kid ns (either "AR-PACKAGES" "SUB-PACKAGES") p l) /\ subs = [] ->
      preorder subs inner -> preorder ps rest -> preorder (p :: ps) (p :: inner ++ rest).
  Definition all_in_order (ps : list node) : Prop :=
    exists top ks, first_kid ns (either "AR-PACKAGES" "TOP-LEVEL-PACKAGES") ([], root) top /\ kids_in_order top ks /\ preorder ks ps.
  (** The profiles that the protections of the file state for PDUs, in order *)
  Definition stated (e : node) (part : list (node * node)) : Prop :=
    nothing e ["END-TO-END-PROFILE"] /\ part = [] \/
    exists prof qs, only e ["END-TO-END-PROFILE"] prof /\ listed e ["END-TO-END-PROTECTION-I-SIGNAL-I-PDUS"; "END-TO-END-PROTECTION-I-SIGNAL-I-PDU"; "I-SIGNAL-I-PDU"] qs /\ part = map (pair prof) qs.
  Definition stated_in (p : node) (out : list (node * node)) : Prop :=
    exists es parts, listed p ["ELEMENTS"; "END-TO-END-PROTECTION-SET"; "END-TO-END-PROTECTIONS"; "END-TO-END-PROTECTION"] es /\ Forall2 stated es parts /\ out = List.concat parts.
  Definition profiles (out : list (node * node)) : Prop := exists ps parts, all_in_order ps /\ Forall2 stated_in ps parts /\ out = List.concat parts.
  (** The last profile for one of the PDUs of a message counts; without one, its own protection stays *)
  Definition states_for (paths : chars -> Prop) (x : node * node) : Prop := paths (path_at ns root (fst (snd x))).
  Definition protected (marks : list (node * node)) (paths : chars -> Prop) (own : option e2e) (len : Z) (o : option e2e) : Prop :=
    (exists a x b e, marks = a ++ x :: b /\ states_for paths x /\ Forall (fun y => ~ states_for paths y) b /\ o = Some e /\
       opt_text_at (fst x) ["CATEGORY"] (e_category e) /\ data_ids (fst x) (e_ids e) /\ e_length e = len) \/
    Forall (fun y => ~ states_for paths y) marks /\ o = own.
  Definition protected_length (i : ainfo) : Z := match sp_secoc (am_spec i) with Some s => so_payload s | None => m_length (am_core i) end.
  Definition general_pdu (pdu : node) : Prop := is_tag "N-PDU" pdu \/ is_tag "GENERAL-PURPOSE-PDU" pdu \/ is_tag "GENERAL-PURPOSE-I-PDU" pdu \/ is_tag "USER-DEFINED-I-PDU" pdu.
  Definition safe_part (marks : list (node * node)) (c : node) (i : ainfo) : Prop :=
    sp_nm (am_spec i) = false /\ sp_general (am_spec i) = false /\ authentication c (sp_secoc (am_spec i)) /\
    exists own, own_protection c own /\ protected marks (part_path ns root v4 c) own (protected_length i) (sp_e2e (am_spec i)).
  Definition safe (marks : list (node * node)) (trig : node) (m : amessage) : Prop :=
    exists frame, only trig ["FRAME"] frame /\
      (nothing frame ["PDU-TO-FRAME-MAPPINGS"; "PDU-TO-FRAME-MAPPING"; "PDU"] /\ am_spec (am_info m) = no_specifics /\ am_contained m = [] \/
       exists pdu, mapped ns root frame pdu /\ (sp_nm (am_spec (am_info m)) = true <-> is_tag "NM-PDU" pdu) /\ (sp_general (am_spec (am_info m)) = true <-> general_pdu pdu) /\
         authentication pdu (sp_secoc (am_spec (am_info m))) /\
         (exists own, own_protection pdu own /\
            match am_contained m with [] => protected marks (frame_path ns root v4 frame pdu) own (protected_length (am_info m)) (sp_e2e (am_spec (am_info m))) | _ => sp_e2e (am_spec (am_info m)) = own end) /\
         exists cs, Forall2 (safe_part marks) cs (am_contained m) /\ forall c, In c cs <-> contained ns root pdu c).
End Spec.

(** ** Proofs *)
Section Proofs.
  Context (from_text : chars -> option spec_float) (from_hex : chars -> result spec_float).
  Context (ns : chars) (root : xml) (rf : refs) (OK : reference_dicts ns root = Ok rf).
  Context (ver : version) (strict : bool) (sort : sort_arg).
  Notation v4 := (ar4 ver).
  Notation reach := (reach ns root).
  Notation only := (only ns root).
  Notation nothing := (nothing ns root).
  Notation text_at := (text_at ns root).
  Notation int_at := (int_at from_text from_hex ns root).
  Notation opt_int_at := (opt_int_at from_text from_hex ns root).
  Notation opt_text_at := (opt_text_at ns root).
  Notation listed := (listed ns root).
  Notation valid := (valid root).
  Notation child := (child ns rf).
  Notation children := (children ns rf).
  Notation is_tag t n := (is_tag ns (txt t) (snd n)).
  Notation data_ids := (data_ids from_text from_hex ns root).
  Notation group_protection := (group_protection from_text from_hex ns root).
  Notation own_protection := (own_protection from_text from_hex ns root).
  Notation authentication := (authentication from_text from_hex ns root).

  Lemma kids_order n : kids_in_order n (n_kids n).
  Proof using. intros i m. apply kids_nth. Qed.
  Lemma concat_split {A B} (R : A -> B -> Prop) : forall (ls : list (list A)) out, Forall2 R (List.concat ls) out -> exists outs, out = List.concat outs /\ Forall2 (Forall2 R) ls outs.
  Proof using.
    induction ls as [|l ls IH]; intros out H; cbn in H.
    - inversion H. exists []. split; [reflexivity|constructor].
    - apply Forall2_app_inv_l in H. destruct H as (a & b & F1 & F2 & ->). destruct (IH b F2) as (outs & -> & F). exists (a :: outs). split; [reflexivity|now constructor].
  Qed.
  Lemma concat_concat {A} (l : list (list (list A))) : List.concat (List.concat l) = List.concat (map (@List.concat A) l).
  Proof using. induction l as [|x l IH]; [reflexivity|]. cbn. now rewrite concat_app, IH. Qed.
  Lemma level_list a n l : good_atom a = true -> valid n -> level ns rf a n = Ok l -> exists parts, Forall2 (counts ns root n (bare a)) (n_kids n) parts /\ l = List.concat parts /\ Forall valid l.
  Proof using OK.
    intros G W H. destruct (good_parsed a G) as (P & E). assert (H' : level ns rf (write_entry (parsed a)) n = Ok l) by (rewrite E; exact H). unfold level in H'. destruct (entry_marks (parsed a) P) as (_ & NA). rewrite NA in H'.
    apply bind_ok in H'. destruct H' as (ll & M & H'). assert (EL : l = List.concat ll) by (destruct (negb _ && _); [discriminate|now injection H' as <-]). exists ll. split; [|split; [exact EL|]].
    - apply mapM_ok in M. revert M. apply f2_imp. intros c part Q. apply (one_ok ns root rf OK n _ c part W) in Q. exact Q.
    - subst l. apply Forall_forall. intros m I. apply in_concat in I. destruct I as (part & I & J). apply mapM_ok in M. pose proof (kids_iff n) as KI. revert part I J. assert (V : Forall valid (n_kids n)) by (apply Forall_forall; intros c C; apply KI in C; exact (kid_ok root n c W C)).
      clear - M V W OK. induction M as [|c part ks ll Q M IH]; intros part' I J; [destruct I|]. inversion V; subst. destruct I as [<-|I]; [|now apply (IH ltac:(assumption) part')]. apply (one_ok ns root rf OK n _ c part W) in Q. destruct Q as [(_ & ->)|[(_ & m' & R & ->)|(_ & _ & ->)]].
      + destruct J as [<-|[]]. assumption.
      + destruct J as [<-|[]]. exact (refers_valid ns root n c m' R).
      + destruct J.
  Qed.
  Lemma lists_ok : forall l bases out, Forall valid bases -> forallb good_atom l = true -> children_of ns rf bases l = Ok out -> exists outs, Forall2 (fun b o => listed b (map bare l) o) bases outs /\ out = List.concat outs.
  Proof using OK.
    induction l as [|a l IH]; intros bases out V G H.
    - injection H as <-. exists (map (fun b => [b]) bases). cbn. split; [|induction bases as [|b bs IHb]; [reflexivity|]; cbn; inversion V; subst; now rewrite <- IHb]. clear. induction bases; constructor; [reflexivity|assumption].
    - cbn [forallb] in G. apply andb_true_iff in G. destruct G as (G1 & G2). cbn [children_of] in H. apply bind_ok in H. destruct H as (ls & M & H). apply mapM_ok in M.
      assert (Q : Forall2 (fun b x => exists parts, Forall2 (counts ns root b (bare a)) (n_kids b) parts /\ x = List.concat parts /\ Forall valid x) bases ls).
      { clear - M V G1 OK. induction M as [|b x bs xs E M IHm]; [constructor|]. inversion V; subst. constructor; [now apply level_list|now apply IHm]. }
      assert (VL : Forall valid (List.concat ls)) by (clear - Q; induction Q as [|b x bs xs (parts & _ & _ & V) Q IHq]; [constructor|]; cbn; apply Forall_app; now split).
      destruct (IH _ _ VL G2 H) as (outs & F & ->). apply concat_split in F. destruct F as (outss & -> & F). exists (map (@List.concat node) outss). rewrite <- concat_concat. split; [|reflexivity].
      clear - Q F. revert outss F. induction Q as [|b x bs xs (parts & C & -> & _) Q IHq]; intros outss F; inversion F as [|? o ? os FO F']; subst; cbn [map]; constructor.
      + exists (n_kids b), parts, o. split; [apply kids_order|]. split; [exact C|]. now split.
      + now apply IHq.
  Qed.
  Lemma at_list l n out : valid n -> children n l = Ok out -> forallb good_atom l = true -> listed n (map bare l) out.
  Proof using OK.
    intros W H G. destruct (lists_ok l [n] out (Forall_cons _ W (Forall_nil _)) G H) as (outs & F & ->). inversion F as [|? o ? os L F']; subst. inversion F'; subst. cbn. now rewrite app_nil_r.
  Qed.
  Lemma get_opt_text n l o : valid n -> child n l = Ok o -> forallb good_atom l = true -> opt_text_at n (map bare l) (opt_text o).
  Proof using OK.
    intros W H G. pose proof (at_child ns root rf OK l n o W H G) as A. destruct o as [m|]; [|exact A]. cbn. destruct A as (_ & A). now exists m.
  Qed.
  Lemma ids_ok n ds ids : valid n -> children n ["DATA-IDS"; "*DATA-ID"] = Ok ds -> mapM (fun d => integer from_text from_hex (n_text d)) ds = Ok ids -> data_ids n ids.
  Proof using OK.
    intros W H M. exists ds. split; [exact (at_list _ n ds W H eq_refl)|]. apply mapM_ok in M. revert M. apply f2_imp. intros d z E. exists (n_text d). split; [|exact E]. exists d. split; [|reflexivity]. intros k. reflexivity.
  Qed.
  Lemma group_ok pdu o : valid pdu -> load_e2e_group from_text from_hex ns rf pdu None = Ok o -> group_protection pdu o.
  Proof using OK.
    intros W H. unfold load_e2e_group in H. apply bind_ok in H. destruct H as (lo & CL & H). apply bind_ok in H. destruct H as (len & L & H). apply bind_ok in H. destruct H as (gs & CG & H).
    exists gs. split; [exact (at_list _ pdu gs W CG eq_refl)|]. pose proof (children_valid ns root rf OK _ pdu gs W CG eq_refl) as VG. destruct (rev gs) as [|g r] eqn:R.
    - left. split; [|now injection H as <-]. rewrite <- (rev_involutive gs), R. reflexivity.
    - right. assert (E : gs = rev r ++ [g]) by (rewrite <- (rev_involutive gs), R; reflexivity). exists (rev r), g. split; [exact E|]. rewrite E in VG. apply Forall_app in VG. destruct VG as (_ & VG). apply Forall_inv in VG. cbv zeta.
      apply bind_ok in H. destruct H as (tp & CT & H). pose proof (at_child ns root rf OK _ g tp VG CT eq_refl) as AT. destruct tp as [t|]; [|left; split; [exact AT|now injection H as <-]].
      destruct AT as (VT & OT). apply bind_ok in H. destruct H as (pn & CP & H). apply bind_ok in H. destruct H as (ds & CD & H). apply bind_ok in H. destruct H as (ids & M & H). injection H as <-. right. eexists t, _. split; [exact OT|]. split; [reflexivity|]. cbn [e_category e_ids e_length].
      split; [exact (get_opt_text t _ pn VT CP eq_refl)|]. split; [exact (ids_ok t ds ids VT CD M)|]. exact (get_int from_text from_hex ns root rf OK pdu _ lo len W CL eq_refl L).
  Qed.
  Definition spec0 (pdu : node) (nm general : bool) (paths : chars -> Prop) (sp : specifics) : Prop :=
    sp_nm sp = nm /\ sp_general sp = general /\ authentication pdu (sp_secoc sp) /\ own_protection pdu (sp_e2e sp) /\ forall path, In path (sp_paths sp) <-> paths path.
  Lemma spec_ok name pdu nm general ps paths e x : valid pdu -> (forall path, In path ps <-> paths path) -> load_e2e_group from_text from_hex ns rf pdu None = Ok e ->
    (if has_tag ns "SECURED-I-PDU" pdu then load_secured from_text from_hex ns rf name pdu (mkSpec ps nm general None e) else Ok ([], mkSpec ps nm general None e)) = Ok x -> spec0 pdu nm general paths (snd x).
  Proof using OK.
    intros W P E H. apply (group_ok pdu e W) in E. destruct (has_tag ns "SECURED-I-PDU" pdu) eqn:T.
    - apply tag_iff in T. unfold load_secured in H. apply bind_ok in H. destruct H as (pp & CP & H). apply bind_ok in H. destruct H as (pl & CL & H). apply bind_ok in H. destruct H as (len & L & H). apply bind_ok in H. destruct H as (e' & E' & H).
      apply bind_ok in H. destruct H as (au & CU & H). apply bind_ok in H. destruct H as (fr & CR & H). apply bind_ok in H. destruct H as (di & CD & H). apply bind_ok in H. destruct H as (did & D & H).
      apply bind_ok in H. destruct H as (ao & CA & H). apply bind_ok in H. destruct H as (auth & A & H). apply bind_ok in H. destruct H as (fl & CF & H). apply bind_ok in H. destruct H as (flen & FL & H).
      apply bind_ok in H. destruct H as (fo & CO & H). apply bind_ok in H. destruct H as (ftx & FX & H). apply bind_ok in H. destruct H as (fs & _ & H). apply bind_ok in H. destruct H as (as_ & _ & H). injection H as <-. cbn [snd].
      destruct pp as [q|]; [|discriminate]. unfold payload_of in CP. destruct (at_child ns root rf OK _ pdu _ W CP eq_refl) as (VQ & OQ). change (only pdu ["PAYLOAD"; "I-PDU"] q) in OQ. cbn [child_exn] in CL.
      split; [reflexivity|]. split; [reflexivity|]. split.
      + cbn [sp_secoc]. split; [exact T|]. cbn. split; [exact (get_opt_text pdu _ au W CU eq_refl)|]. split; [exact (get_opt_text pdu _ fr W CR eq_refl)|]. split; [exists q; split; [exact OQ|exact (get_int from_text from_hex ns root rf OK q _ pl len VQ CL eq_refl L)]|].
        split; [exact (get_opt_int from_text from_hex ns root rf OK pdu _ di did W CD eq_refl D)|]. split; [exact (get_opt_int from_text from_hex ns root rf OK pdu _ fl flen W CF eq_refl FL)|].
        split; [exact (get_opt_int from_text from_hex ns root rf OK pdu _ fo ftx W CO eq_refl FX)|exact (get_opt_int from_text from_hex ns root rf OK pdu _ ao auth W CA eq_refl A)].
      + split; [|exact P]. cbn [sp_e2e] in *. exists e. split; [exact E|]. destruct e as [e|]; [now injection E' as <-|]. left. split; [exact T|]. exists q. split; [exact OQ|]. exact (group_ok q e' VQ E').
    - apply tag_not in T. injection H as <-. cbn. split; [reflexivity|]. split; [reflexivity|]. split; [exact T|]. split; [|exact P]. exists e. split; [exact E|]. destruct e; [reflexivity|]. right. now split.
  Qed.
  (** *** Messages when they are loaded *)
  Definition part0 (c : node) (i : ainfo) : Prop := spec0 c false false (part_path ns root v4 c) (am_spec i).
  Lemma part0_ok k frame c out : valid c -> load_contained from_text from_hex ns rf sort (load_pdu from_text from_hex ns rf ver sort k frame) 1 c = Ok out -> part0 c (fst out).
  Proof using OK.
    intros W H. pose proof H as H0. unfold load_contained in H. apply bind_ok in H. destruct H as (name & _ & H). apply bind_ok in H. destruct H as (lo & _ & H). apply bind_ok in H. destruct H as (len & _ & H).
    apply bind_ok in H. destruct H as (ho & _ & H). apply bind_ok in H. destruct H as (h & _ & H). apply bind_ok in H. destruct H as (com & _ & H). apply bind_ok in H. destruct H as (u & _ & H). apply bind_ok in H. destruct H as (r & R & H).
    destruct (p_contained r); [discriminate|]. apply bind_ok in H. destruct H as (here & P & H). apply bind_ok in H. destruct H as (e & E & H). apply bind_ok in H. destruct H as (x & X & H). apply bind_ok in H. destruct H as (i & I & H).
    injection H as <-. apply bind_ok in I. destruct I as (m & M & I). injection I as <-. cbn [fst]. unfold part0. cbn [am_spec].
    refine (spec_ok name c false false _ (part_path ns root v4 c) e x W _ E X). exact (proj2 (part_new from_text from_hex ns root rf OK ver sort _ (paths_ok from_text from_hex ns root rf OK ver sort k frame) 1 c _ W H0)).
  Qed.
  Lemma parts0 frame : forall k pdu r, valid pdu -> load_pdu from_text from_hex ns rf ver sort k frame pdu 1 = Ok r ->
    exists cs, Forall2 part0 cs (parts_of r) /\ forall c, In c cs <-> contained ns root pdu c.
  Proof using OK.
    induction k as [|k IH]; intros pdu r W H; [discriminate|]. cbn [load_pdu] in H. unfold load_pdu_step in H. destruct (has_tag ns "CONTAINER-I-PDU" pdu) eqn:T1.
    - apply tag_iff in T1. apply bind_ok in H. destruct H as (lo & _ & H). apply bind_ok in H. destruct H as (? & _ & H). apply bind_ok in H. destruct H as (ho & CH & H). apply bind_ok in H. destruct H as (ht & HT & H).
      pose proof (get_text ns root rf OK pdu _ ho ht W CH eq_refl HT) as TX. change (text_at pdu ["HEADER-TYPE"] ht) in TX. destruct (is_text "SHORT-HEADER" ht) eqn:Q.
      + apply is_text_iff in Q. subst ht. apply bind_ok in H. destruct H as (cs & C & H). apply bind_ok in H. destruct H as (l & M & H). injection H as <-. unfold parts_of. cbn [p_contained].
        pose proof (at_children ns root rf OK _ pdu cs W C eq_refl) as IC. pose proof (children_valid ns root rf OK _ pdu cs W C eq_refl) as VC. exists cs. split.
        * apply mapM_ok in M. clear - M VC OK. induction M as [|c o cs l E M IH]; [constructor|]. inversion VC; subst. constructor; [exact (part0_ok k frame c o ltac:(assumption) E)|now apply IH].
        * intros c. rewrite IC. split; [intros R; now apply con_here|]. intros R. inversion R; subst; [assumption|contradiction].
      + injection H as <-. exists []. split; [constructor|]. intros c. split; [intros []|]. intros R. inversion R as [pdu' c' _ TX' _|pdu' q c' N _ _ _]; subst; [|contradiction].
        rewrite (text_fun ns root _ _ _ _ TX TX') in Q. discriminate.
    - apply tag_not in T1. destruct (has_tag ns "SECURED-I-PDU" pdu) eqn:T2.
      + apply tag_iff in T2. apply bind_ok in H. destruct H as (pp & CP & H). destruct pp as [q|]; [|discriminate]. apply bind_ok in H. destruct H as (l & L & H). apply bind_ok in H. destruct H as (here & _ & H). injection H as <-.
        unfold payload_of in CP. destruct (at_child ns root rf OK _ pdu _ W CP eq_refl) as (VQ & OQ). change (only pdu ["PAYLOAD"; "I-PDU"] q) in OQ. destruct (IH q l VQ L) as (cs & F & I). exists cs. split; [exact F|].
        intros c. rewrite I. split; [intros R; exact (con_secured _ _ pdu q c T1 T2 OQ R)|]. intros R. inversion R as [pdu' c' N _ _|pdu' q' c' _ _ O' R']; subst; [contradiction|]. now rewrite (only_fun ns root _ _ q q' OQ O').
      + apply tag_not in T2. assert (E : p_contained r = None).
        { apply bind_ok in H. destruct H as (lo & _ & H). apply bind_ok in H. destruct H as (? & _ & H). apply bind_ok in H. destruct H as (cyc & CY & H). apply bind_ok in H. destruct H as (sigs & S & H).
          destruct (has_tag ns "MULTIPLEXED-I-PDU" pdu); [|now injection H as <-]. apply bind_ok in H. destruct H as (((? & ?) & ?) & _ & H). now injection H as <-. }
        exists []. unfold parts_of. rewrite E. split; [constructor|]. intros c. split; [intros []|]. intros R. inversion R; subst; contradiction.
  Qed.
  Lemma general_iff pdu : has_tag ns "N-PDU" pdu || has_tag ns "GENERAL-PURPOSE-PDU" pdu || has_tag ns "GENERAL-PURPOSE-I-PDU" pdu || has_tag ns "USER-DEFINED-I-PDU" pdu = true <-> general_pdu ns pdu.
  Proof using.
    unfold general_pdu. rewrite <- (tag_iff ns "N-PDU" pdu), <- (tag_iff ns "GENERAL-PURPOSE-PDU" pdu), <- (tag_iff ns "GENERAL-PURPOSE-I-PDU" pdu), <- (tag_iff ns "USER-DEFINED-I-PDU" pdu).
    generalize (has_tag ns "N-PDU" pdu), (has_tag ns "GENERAL-PURPOSE-PDU" pdu), (has_tag ns "GENERAL-PURPOSE-I-PDU" pdu), (has_tag ns "USER-DEFINED-I-PDU" pdu). clear. intros [] [] [] []; cbn; intuition.
  Qed.
  Definition message0 (trig : node) (m : amessage) : Prop :=
    exists frame, only trig ["FRAME"] frame /\
      (nothing frame ["PDU-TO-FRAME-MAPPINGS"; "PDU-TO-FRAME-MAPPING"; "PDU"] /\ am_spec (am_info m) = no_specifics /\ am_contained m = [] \/
       exists pdu nm general, mapped ns root frame pdu /\ (nm = true <-> is_tag "NM-PDU" pdu) /\ (general = true <-> general_pdu ns pdu) /\ spec0 pdu nm general (frame_path ns root v4 frame pdu) (am_spec (am_info m)) /\
         exists cs, Forall2 part0 cs (am_contained m) /\ forall c, In c cs <-> contained ns root pdu c).
  Lemma message0_ok limit bus trig m : valid trig -> load_message from_text from_hex ns rf ver strict sort limit bus trig = Ok m -> message0 trig m.
  Proof using OK.
    intros W H. unfold load_message in H. apply bind_ok in H. destruct H as (fo & CF & H). apply bind_ok in H. destruct H as (frame & F & H). destruct fo as [f|]; [|discriminate]. injection F as ->.
    destruct (at_child ns root rf OK _ trig _ W CF eq_refl) as (VF & OF). change (only trig ["FRAME"] frame) in OF.
    apply bind_ok in H. destruct H as (name & _ & H). apply bind_ok in H. destruct H as (ido & _ & H). apply bind_ok in H. destruct H as (id & _ & H). apply bind_ok in H. destruct H as (lo & _ & H). apply bind_ok in H. destruct H as (len & _ & H).
    apply bind_ok in H. destruct H as (mo & _ & H). apply bind_ok in H. destruct H as (com & _ & H). apply bind_ok in H. destruct H as (rx & _ & H). apply bind_ok in H. destruct H as (tx & _ & H). apply bind_ok in H. destruct H as (po & CP & H).
    pose proof (at_child ns root rf OK _ frame po VF CP eq_refl) as AP. exists frame. split; [exact OF|]. destruct po as [pdu|].
    - destruct AP as (VP & OP). change (mapped ns root frame pdu) in OP.
      apply bind_ok in H. destruct H as (ro & CR & H). apply bind_ok in H. destruct H as (path & P & H). apply bind_ok in H. destruct H as (r & R & H). apply bind_ok in H. destruct H as (e & E & H). apply bind_ok in H. destruct H as (x & X & H).
      apply bind_ok in H. destruct H as (u & _ & H). apply bind_ok in H. destruct H as (i & NI & H). injection H as <-. unfold new_info in NI. apply bind_ok in NI. destruct NI as (m & M & NI). injection NI as <-.
      destruct (paths_ok from_text from_hex ns root rf OK ver sort _ _ _ _ _ VP R) as (_ & PQ). right. eexists pdu, _, _. split; [exact OP|]. split; [apply tag_iff|]. split; [|split; [|exact (parts0 name limit pdu r VP R)]].
      + apply general_iff.
      + cbn [am_info am_spec]. refine (spec_ok name pdu _ _ _ _ e x VP _ E X). intros p. rewrite in_app_iff, PQ. apply or_iff_compat_r.
        pose proof (at_child ns root rf OK _ frame ro VF CR eq_refl) as AR. destruct ro as [rr|].
        * destruct AR as (VR & OR). change (only frame ["PDU-TO-FRAME-MAPPINGS"; "PDU-TO-FRAME-MAPPING"; "PDU-REF"] rr) in OR. apply bind_ok in P. destruct P as (a & A & P). injection P as <-. pose proof (pointed ns root rf OK rr rr a VR A) as PT. cbn [In]. split.
          { intros [<-|[]]. exists rr. split; [exact OR|now apply PT]. }
          { intros (r' & O & Q). rewrite (only_fun ns root _ _ r' rr O OR) in Q. left. symmetry. now apply PT. }
        * injection P as <-. split; [intros []|]. intros (r' & O & _). destruct (only_nothing ns root _ _ r' O AR).
    - apply bind_ok in H. destruct H as (i & NI & H). injection H as <-. unfold new_info in NI. apply bind_ok in NI. destruct NI as (m & M & NI). injection NI as <-. left. split; [exact AP|]. now split.
  Qed.
  Lemma package0 limit p l : valid p -> package_messages from_text from_hex ns rf ver strict sort limit p = Ok l ->
    exists bts, Forall2 (fun bt m => message0 (snd bt) m) bts l /\ forall bt, In bt bts <-> exists c, reach p ["ELEMENTS"; "CAN-CLUSTER"] c /\ triggers ns root ver (fst bt) c (snd bt).
  Proof using OK.
    intros W H. unfold package_messages in H. apply bind_ok in H. destruct H as (cs & C & H). apply bind_ok in H. destruct H as (ls & M & H). injection H as <-.
    pose proof (at_children ns root rf OK _ p cs W C eq_refl) as IC. pose proof (children_valid ns root rf OK _ p cs W C eq_refl) as VC. rewrite Forall_forall in VC.
    destruct (gather _ _ _ M (fun bt m => message0 (snd bt) m) (fun c (bt : chars * node) => triggers ns root ver (fst bt) c (snd bt))) as (bts & F & I).
    - intros c l IN Q. apply bind_ok in Q. destruct Q as (bus & N & Q). apply bind_ok in Q. destruct Q as (ts & T & Q). specialize (VC c IN).
      assert (G : forallb good_atom (loc ver ["CAN-CLUSTER-VARIANTS"; "*&CAN-CLUSTER-CONDITIONAL"; "PHYSICAL-CHANNELS"; "*&CAN-PHYSICAL-CHANNEL"; "FRAME-TRIGGERINGS"; "*&CAN-FRAME-TRIGGERING"]
                                 ["PHYSICAL-CHANNELS"; "*&PHYSICAL-CHANNEL"; "FRAME-TRIGGERINGSS"; "*&CAN-FRAME-TRIGGERING"]) = true) by (unfold loc; now destruct v4).
      pose proof (at_children ns root rf OK _ c ts VC T G) as IT. rewrite either_bare in IT. pose proof (children_valid ns root rf OK _ c ts VC T G) as VT. rewrite Forall_forall in VT.
      pose proof (get_name ns root rf OK c bus VC N) as TN. exists (map (pair bus) ts). split.
      + apply mapM_ok in Q. clear - Q VT OK. induction Q as [|t m ts l E Q IH]; [constructor|]. cbn [map]. constructor; [apply (message0_ok limit bus); [apply VT; now left|exact E]|]. apply IH. intros y Y. apply VT. now right.
      + intros (bus', t). cbn [fst snd]. rewrite in_map_iff. unfold triggers, either in *. split.
        * intros (t' & E & I). injection E as <- <-. apply IT in I. split; [now destruct v4|exact TN].
        * intros (R & TN'). exists t. rewrite (text_fun ns root _ _ _ _ TN TN'). split; [reflexivity|]. apply IT. now destruct v4.
    - exists bts. split; [exact F|]. intros bt. rewrite I. split; intros (c & Q & R); exists c; (split; [now apply IC|exact R]).
  Qed.

  (** *** The senders and receivers have nothing to do with it *)
  Definition facts (i : ainfo) : message * specifics := (am_core i, am_spec i).
  Definition all_facts (m : amessage) : message * specifics * list (message * specifics) := (facts (am_info m), map facts (am_contained m)).
  Definition kept (ms ms' : list amessage) : Prop := map all_facts ms = map all_facts ms'.
  Lemma kept_fold {T} (f : list amessage -> T -> result (list amessage)) : (forall ms x ms', f ms x = Ok ms' -> kept ms ms') -> forall l ms ms', foldM f l ms = Ok ms' -> kept ms ms'.
  Proof using.
    intros K. induction l as [|x l IH]; intros ms ms' H; cbn in H; [now injection H as <-|]. apply bind_ok in H. destruct H as (m1 & E & H). unfold kept in *. rewrite (K _ _ _ E). now apply IH.
  Qed.
  Lemma kept_change path f ms : (forall b i, facts (f b i) = facts i) -> kept ms (change_pdu path f ms).
  Proof using.
    intros K. unfold kept, change_pdu. rewrite map_map. apply map_ext. intros m. unfold all_facts. cbn. rewrite map_map. f_equal.
    - destruct (mem_text path (sp_paths (am_spec (am_info m)))); [now rewrite K|reflexivity].
    - apply map_ext. intros i. destruct (mem_text path (sp_paths (am_spec i))); [now rewrite K|reflexivity].
  Qed.
  Lemma kept_nodes f pdus ms ms' : change_nodes rf f pdus ms = Ok ms' -> (forall b i, facts (f b i) = facts i) -> kept ms ms'.
  Proof using. intros H K. revert H. apply kept_fold. intros m1 p m2 H. apply bind_ok in H. destruct H as (path & _ & H). injection H as <-. now apply kept_change. Qed.
  Lemma kept_ecu_group e ms g ms' : ecu_group ns rf ver e ms g = Ok ms' -> kept ms ms'.
  Proof using.
    intros H. unfold ecu_group in H. apply bind_ok in H. destruct H as (d & _ & H). apply bind_ok in H. destruct H as (dir & _ & H). apply bind_ok in H. destruct H as (ps & _ & H).
    destruct (is_text "IN" dir); [apply (kept_nodes _ _ _ _ H (fun _ _ => eq_refl))|]. destruct (is_text "OUT" dir); [apply (kept_nodes _ _ _ _ H (fun _ _ => eq_refl))|]. now injection H as <-.
  Qed.
  Lemma kept_ecu ms e ms' : ecu_links ns rf ver ms e = Ok ms' -> kept ms ms'.
  Proof using. intros H. unfold ecu_links in H. apply bind_ok in H. destruct H as (o & _ & H). apply bind_ok in H. destruct H as (n & _ & H). apply bind_ok in H. destruct H as (gs & _ & H). revert H. apply kept_fold. apply kept_ecu_group. Qed.
  Lemma kept_nm_node ms n ms' : nm_node_links ns rf ms n = Ok ms' -> kept ms ms'.
  Proof using.
    intros H. unfold nm_node_links in H. apply bind_ok in H. destruct H as (c & _ & H). destruct c as [r|]; [|now injection H as <-]. apply bind_ok in H. destruct H as (t & _ & H). apply bind_ok in H. destruct H as (p & _ & H). cbv zeta in H.
    destruct (look_up _ _ _ _) as [e|]; [|now injection H as <-]. apply bind_ok in H. destruct H as (ecu & _ & H). apply bind_ok in H. destruct H as (rx & _ & H). apply bind_ok in H. destruct H as (m1 & H1 & H). apply bind_ok in H. destruct H as (tx & _ & H).
    unfold kept. rewrite (kept_nodes _ _ _ _ H1 (fun _ _ => eq_refl)). exact (kept_nodes _ _ _ _ H (fun _ _ => eq_refl)).
  Qed.
  Lemma kept_package ms p ms' : package_links ns rf ver ms p = Ok ms' -> kept ms ms'.
  Proof using.
    intros H. unfold package_links in H. apply bind_ok in H. destruct H as (es & _ & H). apply bind_ok in H. destruct H as (m1 & H1 & H). unfold kept. rewrite (kept_fold _ kept_ecu _ _ _ H1).
    unfold nm_links in H. destruct v4; [|now injection H as <-]. apply bind_ok in H. destruct H as (cs & _ & H). revert H. apply kept_fold. intros m2 c m3 H. apply bind_ok in H. destruct H as (l & _ & H). exact (kept_fold _ kept_nm_node _ _ _ H).
  Qed.
  Lemma kept_links : forall d l ms ms', links ns rf ver d l ms = Ok ms' -> kept ms ms'.
  Proof using.
    induction d as [|d IH]; intros l ms ms' H; cbn [links] in H; destruct l as [l|]; try (now injection H as <-); [discriminate|]. apply bind_ok in H. destruct H as (ps & _ & H). revert H. apply kept_fold.
    intros m1 p m2 H. apply bind_ok in H. destruct H as (m3 & H3 & H). apply bind_ok in H. destruct H as (s & _ & H). unfold kept. rewrite (kept_package _ _ _ H3). exact (IH _ _ _ H).
  Qed.
  Lemma kept_order : forall d l ms ms', system_order ns rf ver d l ms = Ok ms' -> kept ms ms'.
  Proof using.
    induction d as [|d IH]; intros l ms ms' H; cbn [system_order] in H; [now injection H as <-|]. revert H. apply kept_fold. intros m1 p m2 H. apply bind_ok in H. destruct H as (s & _ & H). destruct s as [s|].
    - apply bind_ok in H. destruct H as (o & _ & H). injection H as <-. unfold kept. rewrite map_map. apply map_ext. intros m. unfold all_facts. destruct (am_contained m) eqn:E; cbn; now rewrite ?E.
    - destruct (sub_list ns ver p) as [l'|]; [exact (IH _ _ _ H)|now injection H as <-].
  Qed.
  Lemma part0_keep cs : forall l l', map facts l = map facts l' -> Forall2 part0 cs l -> Forall2 part0 cs l'.
  Proof using.
    induction cs as [|c cs IH]; intros l l' E F; inversion F as [|? i0 ? l0 P0 F']; subst; destruct l' as [|i l']; try discriminate; [constructor|]. pose proof (f_equal (hd (facts i)) E) as E1. apply (f_equal (@tl _)) in E. cbn [map hd tl] in E, E1. constructor; [|now apply (IH l0)].
    unfold part0. apply (f_equal snd) in E1. cbn in E1. now rewrite <- E1.
  Qed.
  Lemma messages_keep bts : forall ms ms', kept ms ms' -> Forall2 (fun bt : chars * node => message0 (snd bt)) bts ms -> Forall2 (fun bt => message0 (snd bt)) bts ms'.
  Proof using.
    induction bts as [|bt bts IH]; intros ms ms' K F; inversion F as [|? m ? l M0 F']; subst; destruct ms' as [|m' ms']; try discriminate; [constructor|]. unfold kept in K. pose proof (f_equal (hd (all_facts m')) K) as K1. apply (f_equal (@tl _)) in K. cbn [map hd tl] in K, K1. constructor; [|now apply (IH l)].
    pose proof (f_equal (fun x => snd (fst x)) K1) as E1. apply (f_equal snd) in K1. unfold all_facts in K1, E1. cbn [fst snd facts] in K1, E1. clear - M0 K1 E1. destruct M0 as (frame & O & [(N & S & C)|(pdu & nm & general & P & A & B & S & cs & Q & I)]); exists frame; (split; [exact O|]); [left|right].
    - rewrite C in K1. split; [exact N|]. split; [congruence|]. destruct (am_contained m'); [reflexivity|discriminate].
    - exists pdu, nm, general. split; [exact P|]. split; [exact A|]. split; [exact B|]. split; [rewrite <- E1; exact S|]. exists cs. split; [exact (part0_keep cs _ _ K1 Q)|exact I].
  Qed.

  (** *** The profiles of the file *)
  Definition mark := (chars * (option chars * list Z))%type.
  Definition put (k : option chars * list Z) (container : bool) (i : ainfo) : ainfo :=
    if container then i else set_e2e (mkE2E (fst k) (snd k) (protected_length i)) i.
  Definition mark_one (container : bool) (i : ainfo) (k : mark) : ainfo := if mem_text (fst k) (sp_paths (am_spec i)) then put (snd k) container i else i.
  Definition each (g : bool -> ainfo -> ainfo) (ms : list amessage) : list amessage :=
    map (fun m => mkAMsg (g (match am_contained m with [] => false | _ => true end) (am_info m)) (am_big_header m) (map (g false) (am_contained m))) ms.
  Definition marked (ks : list mark) : list amessage -> list amessage := each (fun b i => fold_left (mark_one b) ks i).
  Lemma each_id ms : each (fun _ i => i) ms = ms.
  Proof using. unfold each. rewrite <- (map_id ms) at 2. apply map_ext. intros [i b c]. cbn. now rewrite map_id. Qed.
  Lemma each_each f g ms : each f (each g ms) = each (fun b i => f b (g b i)) ms.
  Proof using. unfold each. rewrite map_map. apply map_ext. intros [i b c]. cbn. rewrite map_map. f_equal. now destruct c. Qed.
  Lemma marked_app a b ms : marked b (marked a ms) = marked (a ++ b) ms.
  Proof using. unfold marked. rewrite each_each. unfold each. apply map_ext. intros m. f_equal; [now rewrite fold_left_app|]. apply map_ext. intros i. now rewrite fold_left_app. Qed.
  Lemma marked_nil ms : marked [] ms = ms.
  Proof using. apply each_id. Qed.
  Definition means (x : node * node) (k : mark) : Prop := fst k = path_at ns root (fst (snd x)) /\ opt_text_at (fst x) ["CATEGORY"] (fst (snd k)) /\ data_ids (fst x) (snd (snd k)).
  Lemma nodes_marked prof k : opt_text_at prof ["CATEGORY"] (fst k) -> data_ids prof (snd k) -> forall pdus ms ms', Forall valid pdus -> change_nodes rf (fun b i => put k b i) pdus ms = Ok ms' ->
    exists ks, Forall2 means (map (pair prof) pdus) ks /\ ms' = marked ks ms.
  Proof using OK.
    intros C D. induction pdus as [|p pdus IH]; intros ms ms' V H; cbn in H.
    - injection H as <-. exists []. split; [constructor|]. symmetry. apply marked_nil.
    - inversion V; subst. apply bind_ok in H. destruct H as (m1 & E & H). apply bind_ok in E. destruct E as (path & P & E). injection E as <-. apply (path_ok ns root rf OK p path ltac:(assumption)) in P.
      destruct (IH _ _ ltac:(assumption) H) as (ks & F & ->). exists ((path, k) :: ks). split.
      + cbn [map]. constructor; [|exact F]. split; [exact P|]. now split.
      + change ((path, k) :: ks) with ([(path, k)] ++ ks). rewrite <- marked_app. reflexivity.
  Qed.
  Lemma folds_marked {T} (f : list amessage -> T -> result (list amessage)) (R : T -> list (node * node) -> Prop) : forall l, (forall x ms ms', In x l -> f ms x = Ok ms' -> exists part ks, R x part /\ Forall2 means part ks /\ ms' = marked ks ms) ->
    forall ms ms', foldM f l ms = Ok ms' -> exists parts ks, Forall2 R l parts /\ Forall2 means (List.concat parts) ks /\ ms' = marked ks ms.
  Proof using.
    induction l as [|x l IH]; intros K ms ms' H; cbn in H.
    - injection H as <-. exists [], []. split; [constructor|]. split; [constructor|]. symmetry. apply marked_nil.
    - apply bind_ok in H. destruct H as (m1 & E & H). destruct (K x _ _ (or_introl eq_refl) E) as (part & k1 & R1 & F1 & ->). destruct (IH (fun y a b Y => K y a b (or_intror Y)) _ _ H) as (parts & k2 & R2 & F2 & ->).
      exists (part :: parts), (k1 ++ k2). split; [now constructor|]. split; [cbn; now apply Forall2_app|]. now rewrite marked_app.
  Qed.
  Lemma protect_marked ms e ms' : valid e -> protect from_text from_hex ns rf ms e = Ok ms' -> exists part ks, stated ns root e part /\ Forall2 means part ks /\ ms' = marked ks ms.
  Proof using OK.
    intros W H. unfold protect in H. apply bind_ok in H. destruct H as (po & CP & H). pose proof (at_child ns root rf OK _ e po W CP eq_refl) as A. destruct po as [prof|].
    - destruct A as (VP & OP). apply bind_ok in H. destruct H as (c & CC & H). apply bind_ok in H. destruct H as (ds & CD & H). apply bind_ok in H. destruct H as (ids & M & H). apply bind_ok in H. destruct H as (pdus & CQ & H).
      pose proof (children_valid ns root rf OK _ e pdus W CQ eq_refl) as VQ. destruct (nodes_marked prof (opt_text c, ids) (get_opt_text prof _ c VP CC eq_refl) (ids_ok prof ds ids VP CD M) pdus ms ms' VQ H) as (ks & F & ->).
      exists (map (pair prof) pdus), ks. split; [|now split]. right. exists prof, pdus. split; [exact OP|]. split; [exact (at_list _ e pdus W CQ eq_refl)|reflexivity].
    - injection H as <-. exists [], []. split; [left; split; [exact A|reflexivity]|]. split; [constructor|]. symmetry. apply marked_nil.
  Qed.
  Lemma package_marked ms p ms' : valid p -> package_protect from_text from_hex ns rf ms p = Ok ms' -> exists part ks, stated_in ns root p part /\ Forall2 means part ks /\ ms' = marked ks ms.
  Proof using OK.
    intros W H. unfold package_protect in H. apply bind_ok in H. destruct H as (es & C & H). pose proof (children_valid ns root rf OK _ p es W C eq_refl) as V. rewrite Forall_forall in V.
    destruct (folds_marked _ (stated ns root) es (fun e a b IN Q => protect_marked a e b (V e IN) Q) _ _ H) as (parts & ks & F & M & ->). exists (List.concat parts), ks. split; [|now split]. exists es, parts. split; [exact (at_list _ p es W C eq_refl)|]. now split.
  Qed.
  Lemma packages_order : forall d l, (depth_of (snd l) <= d)%nat -> preorder ns v4 (n_kids l) (packages ns ver d false l).
  Proof using from_text from_hex.
    induction d as [|d IH]; intros l D; [destruct (snd l); cbn in D; lia|]. cbn [packages].
    assert (K : forall k, In k (n_kids l) -> (depth_of (snd k) <= d)%nat) by (intros k I; apply kids_iff in I; apply kid_depth in I; lia). revert K. generalize (n_kids l) as ks. clear l D.
    induction ks as [|p ks IHk]; intros K; cbn [flat_map]; [constructor|]. cbn [app]. destruct (sub_list ns ver p) as [l|] eqn:S.
    - unfold sub_list in S. apply (find_iff from_text from_hex) in S. apply (pre_cons _ _ p ks (n_kids l)); [left; exists l; split; [exact S|apply kids_order]| |apply IHk; intros k I; apply K; now right].
      apply IH. specialize (K p (or_introl eq_refl)). apply first_is_kid in S. apply kid_depth in S. lia.
    - apply (pre_cons _ _ p ks []); [right; split; [|reflexivity]|constructor|apply IHk; intros k I; apply K; now right]. intros l F. apply (find_iff from_text from_hex) in F. unfold sub_list in S. unfold either in F. rewrite S in F. discriminate.
  Qed.
  Lemma one_marked marks ks (F : Forall2 means marks ks) i : forall paths, (forall p, In p (sp_paths (am_spec i)) <-> paths p) -> let i' := fold_left (mark_one false) ks i in
    am_core i' = am_core i /\ sp_paths (am_spec i') = sp_paths (am_spec i) /\ sp_nm (am_spec i') = sp_nm (am_spec i) /\ sp_general (am_spec i') = sp_general (am_spec i) /\ sp_secoc (am_spec i') = sp_secoc (am_spec i) /\
    protected from_text from_hex ns root marks paths (sp_e2e (am_spec i)) (protected_length i') (sp_e2e (am_spec i')).
  Proof using.
    intros paths P. revert ks F. induction marks as [|x marks IH] using rev_ind; intros ks F.
    - inversion F; subst. cbn. do 5 (split; [reflexivity|]). right. split; [constructor|reflexivity].
    - apply Forall2_app_inv_l in F. destruct F as (k1 & k2 & F & X & ->). inversion X as [|? k ? ? M X']; subst. inversion X'; subst. destruct M as (M1 & M2 & M3). destruct (IH k1 F) as (A & B & C & D & E & Q). cbv zeta in *. rewrite fold_left_app. cbn [fold_left].
      set (j := fold_left (mark_one false) k1 i) in *. unfold mark_one. destruct (mem_text (fst k) (sp_paths (am_spec j))) eqn:T.
      + apply mem_iff in T. rewrite B, P, M1 in T. unfold put. cbn. do 5 (split; [assumption|]). left. exists marks, x, [], (mkE2E (fst (snd k)) (snd (snd k)) (protected_length j)). split; [reflexivity|]. split; [exact T|]. split; [constructor|]. split; [reflexivity|]. split; [exact M2|]. split; [exact M3|reflexivity].
      + assert (N : ~ states_for ns root paths x) by (intros S; unfold states_for in S; rewrite <- M1, <- P, <- B, <- mem_iff in S; congruence). do 5 (split; [assumption|]). destruct Q as [(a & y & b & e & -> & S & Z & Q)|(Z & Q)].
        * left. exists a, y, (b ++ [x]), e. split; [now rewrite <- app_assoc|]. split; [exact S|]. split; [apply Forall_app; split; [exact Z|now constructor]|exact Q].
        * right. split; [|exact Q]. apply Forall_app. split; [exact Z|now constructor].
  Qed.
  Lemma container_marked ks : forall i, fold_left (mark_one true) ks i = i.
  Proof using. induction ks as [|k ks IH]; intros i; [reflexivity|]. cbn [fold_left]. unfold mark_one at 2. unfold put. now destruct (mem_text _ _). Qed.
  Lemma safe_ok marks ks (F : Forall2 means marks ks) bts : forall ms, Forall2 (fun bt : chars * node => message0 (snd bt)) bts ms -> Forall2 (fun bt => safe from_text from_hex ns root v4 marks (snd bt)) bts (marked ks ms).
  Proof using.
    intros ms M. unfold marked, each. induction M as [|bt m bts ms M0 M IH]; [constructor|]. cbn [map]. constructor; [|exact IH]. destruct M0 as (frame & O & [(N & S & C)|(pdu & nm & general & P & A & B & S & cs & Q & I)]); exists frame; (split; [exact O|]); [left|right].
    - cbn [am_info am_contained]. rewrite C. cbn [map]. split; [exact N|]. split; [|reflexivity]. destruct m as [i b c]. cbn [am_info am_contained] in *. clear - S. induction ks as [|k ks IH]; [exact S|]. cbn [fold_left]. unfold mark_one at 2. rewrite S. exact IH.
    - exists pdu. split; [exact P|]. destruct S as (S1 & S2 & S3 & S4 & S5). destruct (one_marked marks ks F (am_info m) _ S5) as (E1 & E2 & E3 & E4 & E5 & E6).
      assert (Z : forall b : bool, let i' := fold_left (mark_one b) ks (am_info m) in sp_nm (am_spec i') = sp_nm (am_spec (am_info m)) /\ sp_general (am_spec i') = sp_general (am_spec (am_info m)) /\ sp_secoc (am_spec i') = sp_secoc (am_spec (am_info m))).
      { intros [|]; cbv zeta; [rewrite container_marked; repeat split|]. now repeat split. }
      cbn [am_info am_contained]. destruct (Z (match am_contained m with [] => false | _ => true end)) as (Z1 & Z2 & Z3). cbv zeta in Z1, Z2, Z3. rewrite Z1, Z2, Z3, S1, S2. split; [exact A|]. split; [exact B|]. split; [exact S3|]. split.
      + exists (sp_e2e (am_spec (am_info m))). split; [exact S4|]. destruct (am_contained m) as [|c l]; cbn [map]; [exact E6|now rewrite container_marked].
      + exists cs. split; [|exact I]. clear - Q F. induction Q as [|c i cs l P0 Q IH]; [constructor|]. cbn [map]. constructor; [|exact IH]. destruct P0 as (S1 & S2 & S3 & S4 & S5). destruct (one_marked marks ks F i _ S5) as (E1 & E2 & E3 & E4 & E5 & E6). cbv zeta in *.
        split; [congruence|]. split; [congruence|]. split; [now rewrite E5|]. exists (sp_e2e (am_spec i)). now split.
  Qed.
  Lemma database_safe limit db : load_database from_text from_hex ns rf ver strict sort limit ([], root) = Ok db ->
    exists marks bts, profiles ns root v4 marks /\ Forall2 (fun bt => safe from_text from_hex ns root v4 marks (snd bt)) bts (db_messages db) /\ forall bt, In bt bts <-> triggered ns root v4 (fst bt) (snd bt).
  Proof using OK.
    intros H. unfold load_database in H. destruct (n_find ns (if v4 then "AR-PACKAGES" else "TOP-LEVEL-PACKAGES") ([], root)) as [top|] eqn:T; [|discriminate].
    change (if v4 then "AR-PACKAGES" else "TOP-LEVEL-PACKAGES") with (either v4 "AR-PACKAGES" "TOP-LEVEL-PACKAGES") in T.
    assert (PK : forall p, In p (all_packages ns ver true top) <-> package ns root v4 (ar_package ns) p).
    { intros p. unfold all_packages. rewrite (packages_iff from_text from_hex) by reflexivity. split; [intros B; exists top; split; [now apply (find_iff from_text from_hex)|exact B]|]. intros (top' & F & B). apply (find_iff from_text from_hex) in F. rewrite T in F. now injection F as <-. }
    apply (find_iff from_text from_hex) in T as FT. pose proof (kid_ok _ _ _ (root_valid root) (first_is_kid _ _ _ _ FT)) as VT.
    apply bind_ok in H. destruct H as (bs & _ & H). apply bind_ok in H. destruct H as (nds & _ & H). apply bind_ok in H. destruct H as (msgs & M & H). apply bind_ok in H. destruct H as (m1 & H1 & H). apply bind_ok in H. destruct H as (m2 & H2 & H). apply bind_ok in H. destruct H as (m3 & H3 & H). injection H as <-. cbn [db_messages].
    destruct (gather _ _ _ M (fun bt m => message0 (snd bt) m) (fun p (bt : chars * node) => exists c, reach p ["ELEMENTS"; "CAN-CLUSTER"] c /\ triggers ns root ver (fst bt) c (snd bt))) as (bts & F & I).
    - intros p l IN Q. apply (package0 limit p l); [|exact Q]. apply PK in IN. destruct IN as (top' & FF & B). apply (below_valid ns root ver _ _ _ B). exact (kid_ok _ _ _ (root_valid root) (first_is_kid _ _ _ _ FF)).
    - assert (VA : forall p, In p (all_packages ns ver false top) -> valid p) by (intros p IN; unfold all_packages in IN; apply (packages_iff from_text from_hex) in IN; [exact (below_valid ns root ver _ _ _ IN VT)|apply le_n]).
      destruct (folds_marked _ (stated_in ns root) _ (fun p a b IN Q => package_marked a p b (VA p IN) Q) _ _ H3) as (parts & ks & FP & FM & ->). exists (List.concat parts), bts. split; [|split].
      + exists (all_packages ns ver false top), parts. split; [|now split]. exists top, (n_kids top). split; [exact FT|]. split; [apply kids_order|]. apply packages_order. apply le_n.
      + apply safe_ok; [exact FM|]. apply (messages_keep bts m1); [exact (kept_order _ _ _ _ H2)|]. apply (messages_keep bts (List.concat msgs)); [exact (kept_links _ _ _ _ H1)|exact F].
      + intros bt. rewrite I. unfold triggered, cluster. split.
        * intros (p & IN & c & R & TR & TN). exists c. split; [exists p; split; [now apply PK|exact R]|now split].
        * intros (c & (p & IN & R) & TN & TR). exists p. split; [now apply PK|]. exists c. split; [exact R|now split].
  Qed.
End Proofs.

(** ** The theorem *)
Section Theorems.
  Context (from_text : chars -> option spec_float) (from_hex : chars -> result spec_float) (strict : bool) (sort : sort_arg) (K : keeps sort) (limit : nat) (root : xml) (ns : chars) (db : adatabase).
  Context (N : root_namespace (x_tag root) = Ok ns) (L : load_system from_text from_hex strict sort limit root = Ok db).
  Notation v4 := (newer (db_version db) 4).
  (** Every message, also one in a container, is protected and authenticated as the file says; the profiles are those of all
      the protections of the file. *)
  Theorem C75_safety : exists marks triggers, profiles ns root v4 marks /\ (forall bus trig, In (bus, trig) triggers <-> triggered ns root v4 bus trig) /\
    Forall2 (fun t m => safe from_text from_hex ns root v4 marks (snd t) m) triggers (db_messages db).
  Proof.
    destruct (loaded from_text from_hex strict sort K limit root ns db N L) as (rf & R & D). destruct (database_safe from_text from_hex ns root rf R _ strict sort limit db D) as (marks & bts & P & F & I). exists marks, bts. split; [exact P|]. split; [intros bus trig; apply I|exact F].
  Qed.
End Theorems.

(** ** Concrete cases *)
Definition show_e2e (e : e2e) : option string * list Z * Z := (option_map string_of_list_ascii (e_category e), e_ids e, e_length e).
Definition show_secoc (s : secoc) : option string * option string * Z * (option Z * option Z * option Z * option Z) :=
  (option_map string_of_list_ascii (so_auth s), option_map string_of_list_ascii (so_fresh s), so_payload s, (so_data_id s, so_fresh_len s, so_fresh_tx s, so_auth_tx s)).
Definition show_safe (i : ainfo) := (m_name (am_core i), sp_nm (am_spec i), sp_general (am_spec i), option_map show_e2e (sp_e2e (am_spec i)), option_map show_secoc (sp_secoc (am_spec i))).
Definition safeties (r : result adatabase) := match r with Ok db => Ok (map (fun m => (show_safe (am_info m), map show_safe (am_contained m))) (db_messages db)) | Err e => Err e end.
Definition protection (category : string) (ids : list string) (pdus : list xml) : xml :=
  el "END-TO-END-PROTECTION" [] "" [el "END-TO-END-PROFILE" [] "" [leaf "CATEGORY" category; el "DATA-IDS" [] "" (map (leaf "DATA-ID") ids)];
    el "END-TO-END-PROTECTION-I-SIGNAL-I-PDUS" [] "" (map (fun p => el "END-TO-END-PROTECTION-I-SIGNAL-I-PDU" [] "" [p]) pdus)].
Definition the_pdu (path : string) : xml := ref_el "I-SIGNAL-I-PDU-REF" "I-SIGNAL-I-PDU" path.
Definition protections (name : string) (l : list xml) (more : list xml) : xml :=
  named_el "AR-PACKAGE" name (el "ELEMENTS" [] "" [named_el "END-TO-END-PROTECTION-SET" "Set" [el "END-TO-END-PROTECTIONS" [] "" l]] :: more).
(** The PDU Plain is protected three times; the last one is in the package after the one with a package inside.  The PDU is
    on its own in the container, and the payload of the secured PDU both there and in the frame FSec. *)
Definition three_times : xml :=
  in_packages [ protections "E1" [protection "PROFILE_01" ["1"; "0x2"] [the_pdu "/P/Plain"; the_pdu "/P/Rest"]] [el "AR-PACKAGES" [] "" [protections "E3" [protection "PROFILE_03" ["9"] [the_pdu "/P/Plain"]] []]];
                protections "E2" [protection "PROFILE_02" ["7"; "6"; "5"] [the_pdu "/P/Plain"]] [] ] sys_root.
Example C75_hypotheses : keeps SortDefault /\ root_namespace (x_tag three_times) = Ok ex_ns /\
  safeties (load_system ex_float ex_hex true SortDefault 3 three_times) = Ok
    [(("FMux", false, false, Some (Some "PROFILE_01", [1; 2], 4), None), []);
     (("FSec", false, false, Some (Some "PROFILE_02", [7; 6; 5], 5), Some (Some "Au", Some "Fr", 5, (None, Some 64, Some 4, Some 20))), []);
     (("FBox", false, false, None, None),
      [("Plain", false, false, Some (Some "PROFILE_02", [7; 6; 5], 5), None);
       ("Sec", false, false, Some (Some "PROFILE_02", [7; 6; 5], 5), Some (Some "Au", Some "Fr", 5, (None, Some 64, Some 4, Some 20)))])].
Proof. split; [exact keeps_default|]. split; vm_compute; reflexivity. Qed.
(** "The end-to-end protection of a message covers its PDU": a protection of the file covers the length of the frame, which
    is 64 bytes here, the one of a group of signals that of the PDU, two bytes. *)
Definition signal_group : xml :=
  named_el "I-SIGNAL-GROUP" "G" [el "TRANSFORMATION-I-SIGNAL-PROPSS" [] "" [el "END-TO-END-TRANSFORMATION-I-SIGNAL-PROPS" [] "" [el "END-TO-END-TRANSFORMATION-I-SIGNAL-PROPS-VARIANTS" [] ""
    [el "END-TO-END-TRANSFORMATION-I-SIGNAL-PROPS-CONDITIONAL" [] "" [el "DATA-IDS" [] "" [leaf "DATA-ID" "3"]; ref_el "TRANSFORMER-REF" "TRANSFORMATION-TECHNOLOGY" "/P/Tech"]]]]].
Definition technology : xml :=
  named_el "TRANSFORMATION-TECHNOLOGY" "Tech" [el "TRANSFORMATION-DESCRIPTIONS" [] "" [el "END-TO-END-TRANSFORMATION-DESCRIPTION" [] "" [leaf "PROFILE-NAME" "PROFILE_05"]]].
Definition grouped : xml := one_frame "I-SIGNAL-I-PDU"
  [ i_signal "A" "8" []; signal_group; technology; pdu_el "In" "2" [] [];
    pdu_el "Pdu" "2" [] [mapping "A" "0" last_; named_el "I-SIGNAL-TO-I-PDU-MAPPING" "MG" [ref_el "I-SIGNAL-GROUP-REF" "I-SIGNAL-GROUP" "/P/G"]] ].
Theorem C75_length_refuted :
  safeties (load_system ex_float ex_hex true SortDefault 3 grouped) = Ok [(("F", false, false, Some (Some "PROFILE_05", [3], 2), None), [])] /\
  safeties (load_system ex_float ex_hex true SortDefault 3 (in_packages [protections "E" [protection "PROFILE_05" ["3"] [the_pdu "/P/Pdu"]] []] grouped)) =
    Ok [(("F", false, false, Some (Some "PROFILE_05", [3], 64), None), [])].
Proof. split; vm_compute; reflexivity. Qed.
(** "A container is never end-to-end protected": one with a group of signals is, by the group. *)
Theorem C75_container_refuted :
  let box := named_el "CONTAINER-I-PDU" "Pdu" [leaf "LENGTH" "64"; leaf "HEADER-TYPE" "SHORT-HEADER";
    el "I-SIGNAL-TO-PDU-MAPPINGS" [] "" [named_el "I-SIGNAL-TO-I-PDU-MAPPING" "MG" [ref_el "I-SIGNAL-GROUP-REF" "I-SIGNAL-GROUP" "/P/G"]];
    el "CONTAINED-PDU-TRIGGERING-REFS" [] "" [ref_el "CONTAINED-PDU-TRIGGERING-REF" "PDU-TRIGGERING" "/P/Bus/Ch/InTrig"]] in
  safeties (load_system ex_float ex_hex true SortDefault 3 (one_frame "CONTAINER-I-PDU" [signal_group; technology; pdu_el "In" "2" [header "3"] []; box])) =
    Ok [(("F", false, false, Some (Some "PROFILE_05", [3], 64), None), [("In", false, false, None, None)])].
Proof. vm_compute. reflexivity. Qed.
