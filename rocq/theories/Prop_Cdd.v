(** Prop_Cdd: property C68, what a diagnostics database holds after reading a CDD file. *)
From Coq Require Import Ascii Sorting.Sorted Floats.SpecFloat.
From Verif Require Import Base PyNum Conversion Signal Bitstruct Formats Did LayoutSpec CodecSpec
     DictLemmas BitsLemmas GenItems NodeProofs CSource CNames Regex DecText DbcToken Xml Cdd Prop_Diag.
Local Open Scope string_scope.
Local Open Scope Z_scope.
Local Open Scope list_scope.

(** ** What a document says, told without the loader *)
Definition sub (t : string) (e : xml) : list xml := filter (fun c => chars_eqb (x_tag c) (txt t)) (x_kids e).
Fixpoint at_path (path : list string) (e : xml) : list xml :=
  match path with [] => [e] | t :: p => flat_map (at_path p) (sub t e) end.
Definition is_first {A} (l : list A) (x : A) : Prop := exists r, l = x :: r.
Definition has_attr (e : xml) (n : string) (v : chars) : Prop :=
  exists l r, x_attrs e = l ++ (txt n, v) :: r /\ ~ In (txt n) (map fst l).
Definition no_attr (e : xml) (n : string) : Prop := ~ In (txt n) (map fst (x_attrs e)).
(** The last entry of a key *)
Definition is_last {K V} (l : list (K * V)) (k : K) (v : V) : Prop := exists a b, l = a ++ (k, v) :: b /\ ~ In k (map fst b).
(** The text of the first TUV of an element [t] *)
Definition translated (t : string) (e : xml) (x : chars) : Prop :=
  exists a n b u, sub t e = a ++ n :: b /\ (forall m, In m a -> sub "TUV" m = []) /\ is_first (sub "TUV" n) u /\ x = x_text u.

(** [c] is [v] without the round brackets at both ends *)
Definition paren (c : ascii) : Prop := c = "("%char \/ c = ")"%char.
Definition stripped (v c : chars) : Prop :=
  exists l r, v = l ++ c ++ r /\ Forall paren l /\ Forall paren r /\
    (c = [] \/ exists a m z, (c = a :: m /\ ~ paren a) /\ exists m', c = m' ++ [z] /\ ~ paren z).
Lemma paren_iff c : Ascii.eqb c "(" || Ascii.eqb c ")" = true <-> paren c.
Proof. unfold paren. rewrite orb_true_iff, !Ascii.eqb_eq. tauto. Qed.
Lemma lstrip_app l x : Forall paren l -> lstrip (l ++ x) = lstrip x.
Proof. induction 1 as [|c l H F IH]; [reflexivity|]. cbn. apply paren_iff in H. now rewrite H. Qed.
Lemma lstrip_keep a m : ~ paren a -> lstrip (a :: m) = a :: m.
Proof. intros H. cbn. destruct (_ || _) eqn:E; [|reflexivity]. apply paren_iff in E. contradiction. Qed.
Lemma lstrip_spec v : exists l, v = l ++ lstrip v /\ Forall paren l /\ (lstrip v = [] \/ exists a m, lstrip v = a :: m /\ ~ paren a).
Proof.
  induction v as [|c v (l & E & F & D)]; [exists []; auto|]. cbn [lstrip]. destruct (_ || _) eqn:P.
  - apply paren_iff in P. exists (c :: l). split; [cbn; congruence|]. auto.
  - exists []. split; [reflexivity|]. split; [constructor|]. right. exists c, v. split; [reflexivity|]. rewrite <- paren_iff. congruence.
Qed.
Lemma strip_iff v c : strip_parens v = c <-> stripped v c.
Proof.
  assert (S : forall v, stripped v (strip_parens v)).
  { clear. intros v. unfold strip_parens. destruct (lstrip_spec v) as (l & E & F & D). destruct (lstrip_spec (rev (lstrip v))) as (r & E2 & F2 & D2).
    exists l, (rev r). assert (X : lstrip v = rev (lstrip (rev (lstrip v))) ++ rev r) by (rewrite <- rev_app_distr, <- E2; symmetry; apply rev_involutive).
    split; [now rewrite <- X|]. split; [exact F|]. split; [now apply Forall_rev|].
    destruct D2 as [D2|(z & m2 & D2 & Z)]; [left; now rewrite D2|]. right. destruct D as [D|(a & m & D & A)].
    - rewrite D in D2. discriminate.
    - assert (Y : exists m', rev (lstrip (rev (lstrip v))) = a :: m').
      { destruct (rev (lstrip (rev (lstrip v)))) as [|a' m'] eqn:R; [|rewrite D in X; injection X as -> _; eauto].
        apply (f_equal (@rev _)) in R. rewrite rev_involutive in R. cbn in R. congruence. }
      destruct Y as (m' & Y). exists a, m', z. split; [auto|]. exists (rev m2). split; [|exact Z]. rewrite D2. reflexivity. }
  split; [intros <-; apply S|]. intros (l & r & -> & F & G & D). unfold strip_parens. rewrite lstrip_app by exact F. destruct D as [->|(a & m & z & (-> & A) & m' & E & Z)].
  - cbn [app]. assert (R : lstrip r = []) by (rewrite <- (app_nil_r r), lstrip_app by exact G; reflexivity). now rewrite R.
  - cbn [app]. rewrite lstrip_keep by exact A. change (a :: m ++ r) with ((a :: m) ++ r). rewrite rev_app_distr, lstrip_app by now apply Forall_rev.
    rewrite E, rev_app_distr. cbn [rev app]. rewrite lstrip_keep by exact Z. cbn. now rewrite rev_involutive.
Qed.

Section Cdd.
  Context (read_int : chars -> option Z) (read_float : chars -> option spec_float).
  Notation load_tree := (load_tree read_int read_float).
  Notation load_string := (load_string read_int read_float).
  Notation add_cdd_string := (add_cdd_string read_int read_float).

  Record type_desc := mkTD {
    td_bits : Z; td_min : option Z; td_max : option Z; td_big : bool; td_unit : option chars;
    td_scale : option (spec_float * spec_float); td_labels : list (Z * Z * chars) }.
  Record inst_desc := mkID { i_id : Z; i_name : chars; i_fields : list (chars * type_desc) }.

  Definition opt_attr (e : xml) (n : string) (o : option Z) : Prop :=
    match o with None => no_attr e n | Some z => exists v, has_attr e n v /\ read_int v = Some z end.
  (** A TEXTMAP for the values from s to e; round brackets around the numbers are left out.  Its text matters if it is for one value. *)
  Definition is_label (e : xml) (l : Z * Z * chars) : Prop :=
    let '(lo, hi, x) := l in
    (exists v c, has_attr e "s" v /\ stripped v c /\ read_int c = Some lo) /\ (exists v c, has_attr e "e" v /\ stripped v c /\ read_int c = Some hi) /\
    (lo = hi -> translated "TEXT" e x).
  Record is_type (e : xml) (id : chars) (t : type_desc) : Prop := {
    it_name : exists n, translated "NAME" e n;
    it_id : has_attr e "id" id;
    it_coding : exists c v, is_first (sub "CVALUETYPE" e) c /\ has_attr c "bl" v /\ read_int v = Some (td_bits t) /\ td_bits t <> 0 /\
      opt_attr c "minsz" (td_min t) /\ opt_attr c "maxsz" (td_max t) /\ has_attr c "bo" (txt (if td_big t then "21" else "12"));
    it_unit : match td_unit t with
              | None => at_path ["PVALUETYPE"; "UNIT"] e = []
              | Some u => exists x, is_first (at_path ["PVALUETYPE"; "UNIT"] e) x /\ u = x_text x
              end;
    it_labels : Forall2 is_label (sub "TEXTMAP" e) (td_labels t);
    it_scale : match td_scale t with
               | None => sub "COMP" e = []
               | Some (f, o) => exists c vf vo, is_first (sub "COMP" e) c /\ has_attr c "f" vf /\ read_float vf = Some f /\
                                has_attr c "o" vo /\ read_float vo = Some o
               end }.
  Definition is_field (types : list (chars * type_desc)) (e : xml) (f : chars * type_desc) : Prop :=
    (exists ref, has_attr e "dtref" ref /\ is_last types ref (snd f)) /\ exists q, is_first (sub "QUAL" e) q /\ fst f = x_text q.
  (** The data objects of an instance: its own, those of the structures of its unions, and those of the library
      DIDs it refers to.  A reference to a DID that the library does not have adds nothing. *)
  Inductive referred (lib : list (chars * xml)) (r : xml) : list xml -> Prop :=
  | ref_found v d : has_attr r "didRef" v -> is_last lib v d -> referred lib r (at_path ["STRUCTURE"; "DATAOBJ"] d)
  | ref_unknown v : has_attr r "didRef" v -> ~ In v (map fst lib) -> referred lib r []
  | ref_none : no_attr r "didRef" -> referred lib r [].
  Definition is_instance (types : list (chars * type_desc)) (lib : list (chars * xml)) (e : xml) (i : inst_desc) : Prop :=
    (exists s v, is_first (sub "STATICVALUE" e) s /\ has_attr s "v" v /\ read_int v = Some (i_id i)) /\
    (exists q, is_first (sub "QUAL" e) q /\ i_name i = x_text q) /\
    exists refs, Forall2 (referred lib) (at_path ["SIMPLECOMPCONT"; "DIDDATAREF"] e) refs /\
      Forall2 (is_field types)
        (at_path ["SIMPLECOMPCONT"; "DATAOBJ"] e ++ at_path ["SIMPLECOMPCONT"; "UNION"; "STRUCT"; "DATAOBJ"] e ++ List.concat refs) (i_fields i).
  (** The library: the DIDs of the first DIDS element *)
  Definition is_library (doc : xml) (lib : list (chars * xml)) : Prop :=
    (sub "DIDS" doc = [] /\ lib = []) \/
    exists d, is_first (sub "DIDS" doc) d /\ Forall2 (fun e p => has_attr e "id" (fst p) /\ snd p = e) (sub "DID" d) lib.
  Definition described (root : xml) (D : list inst_desc) : Prop :=
    exists doc ecu var types lib,
      is_first (sub "ECUDOC" root) doc /\
      Forall2 (fun e p => is_type e (fst p) (snd p)) (flat_map x_kids (sub "DATATYPES" doc)) types /\
      is_library doc lib /\ is_first (sub "ECU" doc) ecu /\ is_first (sub "VAR" ecu) var /\
      Forall2 (is_instance types lib) (at_path ["DIAGCLASS"; "DIAGINST"] var) D.

  (** The text of a value: the last TEXTMAP for exactly this value *)
  Definition label_of (ls : list (Z * Z * chars)) (z : Z) : option choice :=
    fold_left (fun o l => let '(lo, hi, x) := l in if (lo =? hi) && (lo =? z) then Some (ChStr (text_of x)) else o) ls None.
  Definition shows_labels (ls : list (Z * Z * chars)) (ch : option choices_t) : Prop :=
    match ch with
    | None => forall z, label_of ls z = None
    | Some l => l <> [] /\ NoDup (map fst l) /\ forall z, zget l z = label_of ls z
    end.
  (** The field of a loaded DID that starts [off] bits into the data *)
  Definition shows_field (off : Z) (f : chars * type_desc) (d : data) : Prop :=
    let t := snd f in let s := d_signal d in
    s_name s = text_of (fst f) /\ s_length s = td_bits t /\ s_big s = td_big t /\ s_signed s = false /\ s_is_mux s = false /\
    s_mux_ids s = None /\ s_mux_sig s = None /\
    s_min s = option_map NInt (td_min t) /\ s_max s = option_map NInt (td_max t) /\ d_unit d = td_unit t /\
    s_start s = cdd_offset_to_dbc_start_bit off (td_bits t) (td_big t) /\
    exists ch, shows_labels (td_labels t) ch /\
      factory (match td_scale t with Some (f, _) => NFlt f | None => NInt 1 end) (match td_scale t with Some (_, o) => NFlt o | None => NInt 0 end) ch false
      = Ok (s_conv s).
  Fixpoint shows_fields (off : Z) (l : list (chars * type_desc)) (ds : list data) : Prop :=
    match l, ds with
    | [], [] => True
    | f :: l, d :: ds => shows_field off f d /\ shows_fields (off + td_bits (snd f)) l ds
    | _, _ => False
    end.
  Definition total (l : list (chars * type_desc)) : Z := fold_right (fun f n => td_bits (snd f) + n) 0 l.
  Definition shows (i : inst_desc) (c : cdd_did) : Prop :=
    c_id c = i_id i /\ c_name c = text_of (i_name i) /\ shows_fields 0 (i_fields i) (c_datas c) /\
    mk_did ((total (i_fields i) + 7) / 8) (map d_signal (c_datas c)) = Ok (c_did c).
  Definition positive (D : list inst_desc) : Prop := forall i f, In i D -> In f (i_fields i) -> 0 < td_bits (snd f).

  (** ** Helpers *)
  Ltac subs := repeat match goal with |- context [findall1 ?t ?e] => change (findall1 t e) with (sub t e) end.
  Lemma flat_map_flat {A B C} (f : A -> list B) (g : B -> list C) l : flat_map g (flat_map f l) = flat_map (fun x => flat_map g (f x)) l.
  Proof. induction l as [|x l IH]; [reflexivity|]. cbn [flat_map]. now rewrite flat_map_app, IH. Qed.
  Lemma fold_path p : forall es, fold_left (fun es t => flat_map (findall1 t) es) p es = flat_map (at_path p) es.
  Proof.
    induction p as [|t p IH]; intros es; cbn [fold_left at_path].
    - induction es as [|e es IHe]; [reflexivity|]. cbn [flat_map app]. now rewrite <- IHe.
    - now rewrite IH, flat_map_flat.
  Qed.
  Lemma findall_path p e : findall p e = at_path p e.
  Proof. unfold findall. rewrite fold_path. cbn [flat_map]. apply app_nil_r. Qed.
  Lemma at_one t e : at_path [t] e = sub t e.
  Proof. cbn [at_path]. induction (sub t e) as [|x l IH]; [reflexivity|]. cbn [flat_map app]. now rewrite IH. Qed.
  Lemma first_iff {A} (l : list A) x : first l = Some x <-> is_first l x.
  Proof. unfold is_first. destruct l as [|y l]; cbn; split; intros H; try discriminate; [destruct H; discriminate|injection H as ->; eauto|destruct H as (r & [= -> ->]); reflexivity]. Qed.
  Lemma first_none {A} (l : list A) : first l = None <-> l = []. Proof. destruct l; cbn; split; congruence. Qed.
  Lemma find_one t e x : find [t] e = Some x <-> is_first (sub t e) x.
  Proof. unfold find. rewrite findall_path, at_one. apply first_iff. Qed.
  Lemma find_none t e : find [t] e = None <-> sub t e = [].
  Proof. unfold find. rewrite findall_path, at_one. apply first_none. Qed.

  Lemma cspec (a b : chars) : reflect (a = b) (chars_eqb a b).
  Proof. unfold chars_eqb; destruct (list_eq_dec ascii_dec a b); constructor; assumption. Qed.
  Lemma dget_first {V} (l : list (chars * V)) k v : dget chars_eqb l k = Some v <-> exists a b, l = a ++ (k, v) :: b /\ ~ In k (map fst a).
  Proof.
    split.
    - induction l as [|[k' v'] l IH]; cbn; [discriminate|]. destruct (cspec k' k) as [->|N].
      + intros [= ->]. exists [], l. auto.
      + intros H. destruct (IH H) as (a & b & -> & M). exists ((k', v') :: a), b. split; [reflexivity|]. cbn. tauto.
    - intros (a & b & -> & N). rewrite get_app. apply (get_none chars_eqb cspec) in N. rewrite N. cbn. now destruct (cspec k k).
  Qed.
  Lemma attr_iff e n v : attr e n = Some v <-> has_attr e n v. Proof. apply dget_first. Qed.
  Lemma attr_none e n : attr e n = None <-> no_attr e n. Proof. apply (get_none chars_eqb cspec). Qed.
  Lemma attr_exn_ok e n v : attr_exn e n = Ok v <-> has_attr e n v.
  Proof. unfold attr_exn. rewrite <- attr_iff. destruct (attr e n); split; congruence. Qed.
  Lemma has_attr_fun e n v w : has_attr e n v -> has_attr e n w -> v = w.
  Proof. rewrite <- !attr_iff. congruence. Qed.
  Lemma int_ok t z : int_of read_int t = Ok z <-> read_int t = Some z.
  Proof. unfold int_of. destruct (read_int t); split; congruence. Qed.
  Lemma float_ok t z : float_of read_float t = Ok z <-> exists f, z = NFlt f /\ read_float t = Some f.
  Proof. unfold float_of. destruct (read_float t) as [f|]; split; intros H; try discriminate; [apply Ok_inj in H; eauto|destruct H as (f' & -> & [= ->]); reflexivity|destruct H as (f' & -> & [=])]. Qed.
  Lemma opt_int_ok e n o : opt_int read_int (attr e n) = Ok o <-> opt_attr e n o.
  Proof.
    unfold opt_int, opt_attr. destruct (attr e n) as [v|] eqn:E.
    - apply attr_iff in E. rewrite bind_ok. split.
      + intros (z & H & X). apply int_ok in H. apply Ok_inj in X. subst o. eauto.
      + destruct o as [z|].
        * intros (w & H & R). rewrite (has_attr_fun _ _ _ _ E H). exists z. split; [now apply int_ok|reflexivity].
        * intros N. apply attr_none in N. apply attr_iff in E. congruence.
    - apply attr_none in E. destruct o as [z|]; split; intros H; try discriminate; auto.
      destruct H as (v & H & _). apply attr_iff in H. apply attr_none in E. congruence.
  Qed.
  Lemma last_get {K V} (eqb : K -> K -> bool) (sp : forall a b, reflect (a = b) (eqb a b)) (l : list (K * V)) :
    forall d k v, dget eqb (fold_left (fun d p => dset eqb d (fst p) (snd p)) l d) k = Some v <->
    is_last l k v \/ (~ In k (map fst l) /\ dget eqb d k = Some v).
  Proof.
    induction l as [|[k0 v0] l IH]; intros d k v; cbn [fold_left fst snd map].
    - split; [auto|]. intros [(a & b & H & _)|[_ H]]; [now destruct a|exact H].
    - rewrite IH, (get_set eqb sp). split.
      + intros [(a & b & -> & N)|[N H]]; [left; exists ((k0, v0) :: a), b; auto|].
        destruct (sp k0 k) as [->|NE]; [injection H as ->; left; exists [], l; auto|]. right. split; [cbn; tauto|exact H].
      + intros [(a & b & E & N)|[N H]].
        * destruct a as [|p a]; cbn in E; injection E as E1 E2; subst.
          -- right. split; [exact N|]. now destruct (sp k k).
          -- left. exists a, b. auto.
        * right. cbn in N. split; [tauto|]. destruct (sp k0 k) as [->|NE]; [tauto|exact H].
  Qed.
  Lemma last_get0 {V} (l : list (chars * V)) k v : dget chars_eqb (fold_left (fun d p => dset chars_eqb d (fst p) (snd p)) l []) k = Some v <-> is_last l k v.
  Proof. rewrite (last_get _ cspec). cbn. split; [intros [H|[_ [=]]]; exact H|auto]. Qed.
  Lemma last_none {V} (l : list (chars * V)) k : dget chars_eqb (fold_left (fun d p => dset chars_eqb d (fst p) (snd p)) l []) k = None <-> ~ In k (map fst l).
  Proof.
    split.
    - intros H I. assert (X : exists v, is_last l k v).
      { clear H. induction l as [|[k0 v0] l IH]; [contradiction|]. destruct (in_dec (list_eq_dec ascii_dec) k (map fst l)) as [J|J].
        - destruct (IH J) as (v & a & b & -> & N). exists v, ((k0, v0) :: a), b. auto.
        - destruct I as [<-|I]; [|contradiction]. exists v0, [], l. auto. }
      destruct X as (v & X). apply last_get0 in X. congruence.
    - intros N. destruct (dget _ _ _) as [v|] eqn:E; [|reflexivity]. apply last_get0 in E. destruct E as (a & b & -> & _).
      exfalso. apply N. rewrite map_app. apply in_app_iff. right. now left.
  Qed.

  Lemma tuv_iff t e x : findtext_tuv t e = Some x <-> translated t e x.
  Proof.
    unfold findtext_tuv, translated. subs. induction (sub t e) as [|n l IH]; cbn [flat_map first option_map].
    - split; [discriminate|]. intros (a & n & b & u & E & _). now destruct a.
    - subs. destruct (sub "TUV" n) as [|u us] eqn:E; cbn [app first option_map].
      + rewrite IH. split.
        * intros (a & m & b & u & -> & N & F & ->). exists (n :: a), m, b, u. split; [reflexivity|]. split; [|auto].
          intros m' [<-|H]; auto.
        * intros (a & m & b & u & H & N & F & ->). destruct a as [|a0 a]; cbn in H; injection H as H1 H2; subst.
          -- destruct F as (r & F). congruence.
          -- exists a, m, b, u. split; [reflexivity|]. split; [|auto]. intros m' H. apply N. now right.
      + split.
        * intros [= <-]. exists [], n, l, u. split; [reflexivity|]. split; [contradiction|]. split; [exists us; exact E|reflexivity].
        * intros (a & m & b & u' & H & N & F & ->). destruct a as [|a0 a]; cbn in H; injection H as H1 H2; subst.
          -- destruct F as (r & F). congruence.
          -- specialize (N a0 (or_introl eq_refl)). congruence.
  Qed.
  Lemma qual_iff e x : findtext ["QUAL"] e = Some x <-> exists q, is_first (sub "QUAL" e) q /\ x = x_text q.
  Proof.
    unfold findtext. destruct (find ["QUAL"] e) as [q|] eqn:E; cbn; split; intros H; try discriminate.
    - injection H as <-. exists q. split; [now apply find_one|reflexivity].
    - destruct H as (q' & F & ->). apply find_one in F. congruence.
    - destruct H as (q' & F & ->). apply find_one in F. congruence.
  Qed.

  (** ** Labels *)
  Lemma textmaps l : forall acc out, load_textmaps read_int l acc = Ok out ->
    exists ls, Forall2 is_label l ls /\
      (NoDup (map fst acc) -> NoDup (map fst out)) /\
      forall z, zget out z = fold_left (fun o l => let '(lo, hi, x) := l in if (lo =? hi) && (lo =? z) then Some (ChStr (text_of x)) else o) ls (zget acc z).
  Proof.
    induction l as [|c r IH]; intros acc out; cbn [load_textmaps].
    - intros H. apply Ok_inj in H. subst out. exists []. repeat split; auto.
    - intros H. apply bind_ok in H as (s & Hs & H). apply bind_ok in H as (lo & Hlo & H). apply bind_ok in H as (e & He & H).
      apply bind_ok in H as (hi & Hhi & H). apply attr_exn_ok in Hs, He. apply int_ok in Hlo, Hhi.
      destruct (Z.eqb_spec lo hi) as [->|NE].
      + destruct (findtext_tuv "TEXT" c) as [x|] eqn:T; [|discriminate]. apply tuv_iff in T.
        destruct (IH _ _ H) as (ls & F & ND & G). exists ((hi, hi, x) :: ls). split; [|split].
        * constructor; [|exact F]. unfold is_label. split; [exists s, (strip_parens s); repeat split; auto; now apply strip_iff|]. split; [exists e, (strip_parens e); repeat split; auto; now apply strip_iff|]. auto.
        * intros N. apply ND. now apply (set_nodup Z.eqb Z.eqb_spec).
        * intros z. rewrite G. cbn [fold_left]. rewrite Z.eqb_refl. cbn [andb]. f_equal. now rewrite (get_set Z.eqb Z.eqb_spec).
      + destruct (IH _ _ H) as (ls & F & ND & G). exists ((lo, hi, []) :: ls). split; [|split].
        * constructor; [|exact F]. unfold is_label. split; [exists s, (strip_parens s); repeat split; auto; now apply strip_iff|]. split; [exists e, (strip_parens e); repeat split; auto; now apply strip_iff|]. congruence.
        * exact ND.
        * intros z. rewrite G. cbn [fold_left]. destruct (Z.eqb_spec lo hi); [contradiction|]. reflexivity.
  Qed.
  Lemma label_fun e l l' : is_label e l -> is_label e l' -> fst l = fst l' /\ (fst (fst l) = snd (fst l) -> l = l').
  Proof.
    destruct l as [[lo hi] x], l' as [[lo' hi'] x']. unfold is_label. intros ((v & cv & V1 & V3 & V2) & (w & cw & W1 & W3 & W2) & T) ((v' & cv' & V1' & V3' & V2') & (w' & cw' & W1' & W3' & W2') & T').
    apply strip_iff in V3, W3, V3', W3'. subst cv cw cv' cw'.
    rewrite (has_attr_fun _ _ _ _ V1' V1) in V2'. rewrite (has_attr_fun _ _ _ _ W1' W1) in W2'.
    assert (lo = lo') by congruence. assert (hi = hi') by congruence. subst. split; [reflexivity|]. cbn. intros ->.
    specialize (T eq_refl). specialize (T' eq_refl). apply tuv_iff in T, T'. congruence.
  Qed.
  Lemma textmaps_ok l ls : Forall2 is_label l ls -> forall acc, exists out, load_textmaps read_int l acc = Ok out.
  Proof.
    induction 1 as [|c [[lo hi] x] l ls L F IH]; intros acc; cbn [load_textmaps]; [eauto|].
    destruct L as ((v & cv & V1 & V3 & V2) & (w & cw & W1 & W3 & W2) & T). apply strip_iff in V3, W3. subst cv cw.
    apply attr_exn_ok in V1, W1. apply int_ok in V2, W2. rewrite V1. cbn [bind]. rewrite V2. cbn [bind]. rewrite W1. cbn [bind]. rewrite W2. cbn [bind].
    destruct (Z.eqb_spec lo hi) as [->|NE]; [|apply IH]. specialize (T eq_refl). apply tuv_iff in T. rewrite T. apply IH.
  Qed.
  Lemma labels_same l ls ls' : Forall2 is_label l ls -> Forall2 is_label l ls' -> forall z, label_of ls z = label_of ls' z.
  Proof.
    intros F F' z. unfold label_of. generalize (@None choice). revert ls' F'.
    induction F as [|c a l ls L F IH]; intros ls' F' o; inversion F' as [|? b ? ls2 L' F2]; subst; [reflexivity|]. cbn [fold_left].
    destruct (label_fun _ _ _ L L') as (E & X). destruct a as [[lo hi] x], b as [[lo' hi'] x']. cbn in E, X. injection E as <- <-.
    destruct (Z.eqb_spec lo hi) as [->|NE]; cbn [andb]; [|now apply IH]. specialize (X eq_refl). injection X as <-. now apply IH.
  Qed.
  Lemma load_choices_ok e ls : Forall2 is_label (sub "TEXTMAP" e) ls -> exists ch, load_choices read_int e = Ok ch /\ shows_labels ls ch.
  Proof.
    intros F. unfold load_choices. subs. destruct (textmaps_ok _ _ F []) as (out & E). rewrite E. cbn [bind].
    destruct (textmaps _ _ _ E) as (ls' & F' & ND & G). eexists. split; [reflexivity|]. unfold shows_labels.
    assert (X : forall z, zget out z = label_of ls z). { intros z. rewrite G. apply (labels_same _ _ _ F' F z). }
    destruct out as [|p out]; [intros z; now rewrite <- X|]. split; [discriminate|]. split; [apply ND; constructor|exact X].
  Qed.
  Lemma load_choices_inv e ch : load_choices read_int e = Ok ch -> exists ls, Forall2 is_label (sub "TEXTMAP" e) ls.
  Proof.
    unfold load_choices. subs. intros H. apply bind_ok in H as (out & E & _).
    destruct (textmaps _ _ _ E) as (ls & F & _). eauto.
  Qed.

  (** ** Types *)
  (** The data type that the loader makes of a description *)
  Definition made (t : type_desc) (dt : data_type) : Prop :=
    t_bits dt = td_bits t /\ t_min dt = td_min t /\ t_max dt = td_max t /\ t_big dt = td_big t /\ t_unit dt = td_unit t /\
    t_factor dt = match td_scale t with Some (f, _) => NFlt f | None => NInt 1 end /\
    t_offset dt = match td_scale t with Some (_, o) => NFlt o | None => NInt 0 end /\ shows_labels (td_labels t) (t_choices dt).
  Lemma unit_iff e u : findtext ["PVALUETYPE"; "UNIT"] e = u <->
    match u with
    | None => at_path ["PVALUETYPE"; "UNIT"] e = []
    | Some u => exists x, is_first (at_path ["PVALUETYPE"; "UNIT"] e) x /\ u = x_text x
    end.
  Proof.
    unfold findtext, find. rewrite findall_path. destruct (at_path _ e) as [|x l]; cbn [first option_map].
    - destruct u as [u|]; split; intros H; try congruence. destruct H as (x & (r & H) & _). discriminate.
    - destruct u as [u|]; split; intros H; try discriminate.
      + injection H as <-. exists x. split; [exists l; reflexivity|reflexivity].
      + destruct H as (y & (r & H) & ->). congruence.
  Qed.
  Definition byte_order (bo : chars) : result bool := if chars_eqb bo (txt "21") then Ok true else if chars_eqb bo (txt "12") then Ok false else Err ParseError.
  Lemma order_ok bo big : byte_order bo = Ok big <-> bo = txt (if big then "21" else "12").
  Proof.
    unfold byte_order. destruct (cspec bo (txt "21")) as [->|N1].
    - split; [intros H; apply Ok_inj in H; now subst big|]. destruct big; [reflexivity|discriminate].
    - destruct (cspec bo (txt "12")) as [->|N2].
      + split; [intros H; apply Ok_inj in H; now subst big|]. destruct big; [discriminate|reflexivity].
      + split; [discriminate|]. destruct big; contradiction.
  Qed.
  Lemma load_type_ok e id t : is_type e id t -> exists dt, load_type read_int read_float e = Ok (id, dt) /\ made t dt.
  Proof.
    intros [(n & N) I (c & v & C1 & C2 & C3 & C4 & C5 & C6 & C7) U L S]. unfold load_type.
    apply tuv_iff in N. rewrite N. cbn [bind]. apply attr_exn_ok in I. rewrite I. cbn [bind].
    apply find_one in C1. rewrite C1. apply attr_iff in C2. rewrite C2. cbn [opt_int]. apply int_ok in C3. rewrite C3. cbn [bind].
    apply opt_int_ok in C5, C6. rewrite C5. cbn [bind]. rewrite C6. cbn [bind]. apply attr_exn_ok in C7. rewrite C7. cbn [bind].
    pose proof (proj2 (order_ok (txt (if td_big t then "21" else "12")) (td_big t)) eq_refl) as O. unfold byte_order in O. rewrite O. cbn [bind].
    destruct (load_choices_ok _ _ L) as (ch & CH & SL). rewrite CH. cbn [bind].
    apply unit_iff in U. rewrite U.
    destruct (td_scale t) as [[f o]|] eqn:SC.
    - destruct S as (k & vf & vo & S1 & S2 & S3 & S4 & S5). apply find_one in S1. rewrite S1. apply attr_exn_ok in S2, S4. rewrite S2. cbn [bind].
      rewrite (proj2 (float_ok vf (NFlt f))) by eauto. cbn [bind]. rewrite S4. cbn [bind]. rewrite (proj2 (float_ok vo (NFlt o))) by eauto. cbn [bind].
      destruct (Z.eqb_spec (td_bits t) 0); [contradiction|]. eexists. split; [reflexivity|]. unfold made. cbn. rewrite SC. auto 10.
    - apply find_none in S. rewrite S. cbn [bind]. destruct (Z.eqb_spec (td_bits t) 0); [contradiction|]. eexists. split; [reflexivity|]. unfold made. cbn. rewrite SC. auto 10.
  Qed.
  Lemma load_type_inv e id dt : load_type read_int read_float e = Ok (id, dt) -> exists t, is_type e id t.
  Proof.
    unfold load_type. intros H. apply bind_ok in H as (n & N & H). destruct (findtext_tuv "NAME" e) as [n'|] eqn:NT; [|discriminate]. apply tuv_iff in NT.
    apply bind_ok in H as (id' & I & H). apply attr_exn_ok in I. apply bind_ok in H as ([[[bits mn] mx] big] & C & H).
    apply bind_ok in H as (ch & CH & H). apply bind_ok in H as ([f o] & FO & H).
    destruct (Z.eqb_spec bits 0) as [|NZ]; [discriminate|]. apply Ok_inj in H. injection H as -> <-.
    destruct (find ["CVALUETYPE"] e) as [c|] eqn:FC; [|apply Ok_inj in C; congruence]. apply find_one in FC.
    apply bind_ok in C as (bl & C1 & C). apply bind_ok in C as (mn' & C2 & C). apply bind_ok in C as (mx' & C3 & C).
    apply bind_ok in C as (bo & C4 & C). apply bind_ok in C as (big' & C5 & C). apply Ok_inj in C. injection C as E1 -> -> ->.
    apply opt_int_ok in C1, C2, C3. apply attr_exn_ok in C4. apply (order_ok bo big) in C5. subst bo.
    destruct bl as [z|]; [|congruence]. subst z. destruct C1 as (v & C1 & C6).
    destruct (load_choices_inv _ _ CH) as (ls & LS).
    assert (S : exists sc, match sc with
               | None => sub "COMP" e = []
               | Some (f, o) => exists c vf vo, is_first (sub "COMP" e) c /\ has_attr c "f" vf /\ read_float vf = Some f /\
                                has_attr c "o" vo /\ read_float vo = Some o
               end).
    { destruct (find ["COMP"] e) as [k|] eqn:FK; [|exists None; now apply find_none]. apply find_one in FK.
      apply bind_ok in FO as (vf & F1 & FO). apply bind_ok in FO as (f' & F2 & FO). apply bind_ok in FO as (vo & F3 & FO). apply bind_ok in FO as (o' & F4 & FO).
      apply attr_exn_ok in F1, F3. apply float_ok in F2, F4. destruct F2 as (f2 & _ & F2). destruct F4 as (f4 & _ & F4). exists (Some (f2, f4)). eauto 10. }
    destruct S as (sc & S).
    exists (mkTD bits mn mx big (findtext ["PVALUETYPE"; "UNIT"] e) sc ls). constructor; cbn; auto.
    - eauto.
    - exists c, v. auto 10.
    - now apply unit_iff.
  Qed.
  Definition made_all (types : list (chars * type_desc)) (l : list (chars * data_type)) : Prop :=
    Forall2 (fun p q => fst q = fst p /\ made (snd p) (snd q)) types l.
  Lemma load_types_ok doc types : Forall2 (fun e p => is_type e (fst p) (snd p)) (flat_map x_kids (sub "DATATYPES" doc)) types ->
    exists l, mapM (load_type read_int read_float) (flat_map x_kids (findall1 "DATATYPES" doc)) = Ok l /\ made_all types l.
  Proof.
    subs. induction 1 as [|e [id t] es ts H F IH]; [exists []; split; [reflexivity|constructor]|].
    destruct (load_type_ok _ _ _ H) as (dt & E & M). destruct IH as (l & E2 & M2). exists ((id, dt) :: l). cbn [mapM fst snd] in *.
    rewrite E. cbn [bind]. rewrite E2. split; [reflexivity|]. constructor; [auto|exact M2].
  Qed.
  Lemma load_types_inv doc ts : load_types read_int read_float doc = Ok ts ->
    exists types, Forall2 (fun e p => is_type e (fst p) (snd p)) (flat_map x_kids (sub "DATATYPES" doc)) types.
  Proof.
    unfold load_types. subs. intros H. apply bind_ok in H as (l & H & _). apply mapM_ok in H.
    induction H as [|e [id dt] es l H F IH]; [exists []; constructor|]. destruct IH as (types & IH). destruct (load_type_inv _ _ _ H) as (t & T).
    exists ((id, t) :: types). constructor; [exact T|exact IH].
  Qed.
  Lemma made_last types l k t : made_all types l -> is_last types k t -> exists dt, is_last l k dt /\ made t dt.
  Proof.
    intros M (a & b & -> & N). apply Forall2_app_inv_l in M as (l1 & l2 & M1 & M2 & ->). inversion M2 as [|? [k' dt] ? l3 [E M] M3]; subst. cbn in E, M. subst k'.
    exists dt. split; [|exact M]. exists l1, l3. split; [reflexivity|]. intros I. apply N. clear - M3 I.
    induction M3 as [|p q b l3 [E _] F IH]; [contradiction|]. destruct I as [I|I]; [left; congruence|right; auto].
  Qed.
  Lemma last_made types l k dt : made_all types l -> is_last l k dt -> exists t, is_last types k t /\ made t dt.
  Proof.
    intros M (a & b & -> & N). apply Forall2_app_inv_r in M as (l1 & l2 & M1 & M2 & ->). inversion M2 as [|[k' t] ? l3 ? [E M] M3]; subst. cbn in E, M. subst k'.
    exists t. split; [|exact M]. exists l1, l3. split; [reflexivity|]. intros I. apply N. clear - M3 I.
    induction M3 as [|p q b l3 [E _] F IH]; [contradiction|]. destruct I as [I|I]; [left; congruence|right; auto].
  Qed.
  Lemma last_fun {V} (l : list (chars * V)) k v w : is_last l k v -> is_last l k w -> v = w.
  Proof. rewrite <- !last_get0. congruence. Qed.

  (** ** Fields *)
  Notation dict l := (fold_left (fun d p => dset chars_eqb d (fst p) (snd p)) l []).
  Lemma factory_total sc of ch : exists c, factory sc of ch false = Ok c.
  Proof.
    unfold factory. assert (X : exists n, num_factory sc of false = Ok n).
    { unfold num_factory. destruct (_ && _); [eauto|]. destruct (is_integer sc) eqn:A; [|cbn; eauto]. destruct (is_integer of) eqn:B; [|cbn; eauto]. cbn [andb negb].
      assert (P : forall n, is_integer n = true -> exists z, py_int n = Ok z).
      { intros [z|f] H; cbn in *; [eauto|]. destruct f; cbn in *; try discriminate; eauto. }
      destruct (P _ A) as (a & ->). destruct (P _ B) as (b & ->). cbn. eauto. }
    destruct X as (n & ->). cbn [bind]. destruct ch; eauto.
  Qed.
  Lemma load_data_ok types l off e f : made_all types l -> is_field types e f -> exists d, load_data (dict l) off e = Ok d /\ shows_field off f d.
  Proof.
    intros M ((ref & R & LT) & q & Q & EQ). destruct (made_last _ _ _ _ M LT) as (dt & LD & MD). unfold load_data.
    apply attr_exn_ok in R. rewrite R. cbn [bind]. apply last_get0 in LD. rewrite LD. cbn [bind].
    destruct (factory_total (t_factor dt) (t_offset dt) (t_choices dt)) as (c & C). rewrite C. cbn [bind].
    rewrite (proj2 (qual_iff e (x_text q))) by eauto. cbn [bind]. eexists. split; [reflexivity|].
    destruct MD as (E1 & E2 & E3 & E4 & E5 & E6 & E7 & E8). unfold shows_field. cbn. rewrite E1, E2, E3, E4, EQ. repeat (split; [first [reflexivity|exact E5]|]).
    exists (t_choices dt). split; [exact E8|]. rewrite <- E6, <- E7. exact C.
  Qed.
  Lemma load_data_inv types l off e d : made_all types l -> load_data (dict l) off e = Ok d -> exists f, is_field types e f.
  Proof.
    intros M. unfold load_data. intros H. apply bind_ok in H as (ref & R & H). apply bind_ok in H as (dt & LD & H). apply bind_ok in H as (c & _ & H). apply bind_ok in H as (n & Q & _).
    apply attr_exn_ok in R. destruct (dget _ _ _) as [dt'|] eqn:E; [|discriminate]. apply last_get0 in E. destruct (last_made _ _ _ _ M E) as (t & LT & _).
    destruct (findtext ["QUAL"] e) as [x|] eqn:X; [|discriminate]. apply qual_iff in X. exists (x, t). split; [eauto|exact X].
  Qed.
  Lemma load_datas_ok types l es fs : made_all types l -> Forall2 (is_field types) es fs ->
    forall off, exists ds, load_datas (dict l) off es = Ok (ds, off + total fs) /\ shows_fields off fs ds.
  Proof.
    intros M. induction 1 as [|e f es fs H F IH]; intros off; cbn [load_datas].
    - exists []. split; [cbn; do 2 f_equal; lia|exact I].
    - destruct (load_data_ok _ _ off _ _ M H) as (d & E & S). rewrite E. cbn [bind].
      assert (LEN : s_length (d_signal d) = td_bits (snd f)) by apply S. rewrite LEN.
      destruct (IH (off + td_bits (snd f))) as (ds & E2 & S2). rewrite E2. cbn [bind fst snd].
      exists (d :: ds). split; [|split; assumption]. unfold total. cbn [fold_right]. fold (total fs). do 2 f_equal. lia.
  Qed.
  Lemma load_datas_inv types l es : made_all types l -> forall off x, load_datas (dict l) off es = Ok x -> exists fs, Forall2 (is_field types) es fs.
  Proof.
    intros M. induction es as [|e es IH]; intros off x; cbn [load_datas]; [exists []; constructor|].
    intros H. apply bind_ok in H as (d & D & H). apply bind_ok in H as (y & Y & _). destruct (IH _ _ Y) as (fs & F). destruct (load_data_inv _ _ _ _ _ M D) as (f & G).
    exists (f :: fs). constructor; assumption.
  Qed.

  (** ** Instances *)
  Lemma refs_eq lib es refs : Forall2 (referred lib) es refs -> flat_map (ref_objects (dict lib)) es = List.concat refs.
  Proof.
    induction 1 as [|e r es refs H F IH]; [reflexivity|]. cbn [flat_map List.concat]. rewrite IH. f_equal. unfold ref_objects.
    destruct H as [v d A L|v A N|N].
    - apply attr_iff in A. rewrite A. apply last_get0 in L. rewrite L. apply findall_path.
    - apply attr_iff in A. rewrite A. apply last_none in N. now rewrite N.
    - apply attr_none in N. now rewrite N.
  Qed.
  Lemma refs_ex lib es : exists refs, Forall2 (referred lib) es refs.
  Proof.
    induction es as [|e es (refs & IH)]; [exists []; constructor|]. assert (X : exists r, referred lib e r).
    { destruct (attr e "didRef") as [v|] eqn:A; [apply attr_iff in A|apply attr_none in A; exists []; now constructor 3].
      destruct (dget chars_eqb (dict lib) v) as [d|] eqn:L; [apply last_get0 in L|apply last_none in L].
      - eexists. econstructor 1; eauto.
      - exists []. econstructor 2; eauto. }
    destruct X as (r & X). exists (r :: refs). constructor; assumption.
  Qed.
  Lemma factory_float sc of ch c : factory sc of ch false = Ok c -> conv_is_float c = false.
  Proof.
    unfold factory. intros H. apply bind_ok in H as (n & N & H). destruct ch; apply Ok_inj in H; subst c; [reflexivity|]. cbn.
    unfold num_factory in N. destruct (_ && _); [apply Ok_inj in N; now subst n|]. destruct (_ && _); [|apply Ok_inj in N; now subst n].
    apply bind_ok in N as (a & _ & N). apply bind_ok in N as (b & _ & N). apply Ok_inj in N. now subst n.
  Qed.
  Lemma shows_in fs : forall off ds s, shows_fields off fs ds -> In s (map d_signal ds) -> exists o f d, In f fs /\ s = d_signal d /\ shows_field o f d.
  Proof.
    induction fs as [|f fs IH]; intros off [|d ds] s H I; try contradiction. destruct H as (H1 & H2). destruct I as [<-|I]; [exists off, f, d; split; [now left|auto]|].
    destruct (IH _ _ _ H2 I) as (o & f' & d' & A & B). exists o, f', d'. split; [now right|auto].
  Qed.
  Lemma shows_in_field fs : forall off ds f, shows_fields off fs ds -> In f fs -> exists o d, In d ds /\ shows_field o f d.
  Proof.
    induction fs as [|f0 fs IH]; intros off [|d ds] f H I; try contradiction. destruct H as (H1 & H2). destruct I as [<-|I]; [exists off, d; split; [now left|auto]|].
    destruct (IH _ _ _ H2 I) as (o & d' & A & B). exists o, d'. split; [now right|auto].
  Qed.
  Lemma shows_formats n off fs ds : shows_fields off fs ds -> ((exists m, mk_did n (map d_signal ds) = Ok m) <-> forall f, In f fs -> 0 < td_bits (snd f)).
  Proof.
    intros S. unfold mk_did. split.
    - intros (m & H) f I. apply bind_ok in H as (fm & H & _). destruct (create_formats_inv _ _ _ H) as (_ & V).
      destruct (shows_in_field _ _ _ _ S I) as (o & d & D & SF). specialize (V _ (in_map d_signal _ _ D)).
      destruct SF as (_ & L & _ & SG & _ & _ & _ & _ & _ & _ & _ & ch & _ & F). apply factory_float in F.
      unfold item_valid, data_item, format_kind in V. rewrite F, SG in V. rewrite <- L. lia.
    - intros P. destruct (create_formats_ok (map d_signal ds) n) as (fm & E).
      + intros s I. destruct (shows_in _ _ _ _ S I) as (o & f & d & F & -> & SF). specialize (P _ F).
        destruct SF as (_ & L & _ & SG & _ & _ & _ & _ & _ & _ & _ & ch & _ & FA). apply factory_float in FA. split; [lia|congruence].
      + rewrite E. cbn. eauto.
  Qed.
  Lemma load_did_eq types l lib e i : made_all types l -> is_instance types lib e i ->
    exists ds, shows_fields 0 (i_fields i) ds /\
      load_did read_int (dict l) (dict lib) e =
      let* m := mk_did ((total (i_fields i) + 7) / 8) (map d_signal ds) in Ok (mkCddDid (i_id i) (text_of (i_name i)) ds m).
  Proof.
    intros M ((s & v & S1 & S2 & S3) & (q & Q1 & Q2) & refs & R & F). unfold load_did.
    assert (O : data_objects (dict lib) e = at_path ["SIMPLECOMPCONT"; "DATAOBJ"] e ++ at_path ["SIMPLECOMPCONT"; "UNION"; "STRUCT"; "DATAOBJ"] e ++ List.concat refs).
    { unfold data_objects. rewrite !findall_path. now rewrite (refs_eq _ _ _ R). }
    rewrite O. destruct (load_datas_ok _ _ _ _ M F 0) as (ds & E & SF). rewrite E. cbn [bind].
    apply find_one in S1. rewrite S1. cbn [bind]. apply attr_exn_ok in S2. rewrite S2. cbn [bind]. apply int_ok in S3. rewrite S3. cbn [bind].
    rewrite (proj2 (qual_iff e (x_text q))) by eauto. cbn [bind fst snd]. exists ds. split; [exact SF|]. rewrite Q2. reflexivity.
  Qed.
  Lemma load_did_inv types l lib e c : made_all types l -> load_did read_int (dict l) (dict lib) e = Ok c -> exists i, is_instance types lib e i.
  Proof.
    intros M. unfold load_did. intros H. apply bind_ok in H as (x & X & H). apply bind_ok in H as (sv & SV & H). apply bind_ok in H as (v & V & H).
    apply bind_ok in H as (id & ID & H). apply bind_ok in H as (n & N & H).
    destruct (find ["STATICVALUE"] e) as [s|] eqn:FS; [|discriminate]. apply Ok_inj in SV. subst s. apply find_one in FS. apply attr_exn_ok in V. apply int_ok in ID.
    destruct (findtext ["QUAL"] e) as [n'|] eqn:FQ; [|discriminate]. apply qual_iff in FQ.
    destruct (refs_ex lib (at_path ["SIMPLECOMPCONT"; "DIDDATAREF"] e)) as (refs & R).
    unfold data_objects in X. rewrite !findall_path in X. rewrite (refs_eq _ _ _ R) in X.
    destruct (load_datas_inv _ _ _ M _ _ X) as (fs & F). exists (mkID id n' fs). split; [|split]; cbn; eauto.
  Qed.

  (** ** Documents *)
  Lemma load_lib_ok doc lib : is_library doc lib -> load_lib doc = Ok (dict lib).
  Proof.
    unfold load_lib. intros [(N & ->)|(d & F & L)].
    - apply find_none in N. now rewrite N.
    - apply find_one in F. rewrite F. subs. assert (E : mapM (fun e => let* id := attr_exn e "id" in Ok (id, e)) (sub "DID" d) = Ok lib).
      { apply mapM_ok. induction L as [|e [k x] es lib (H & E) L IH]; constructor; [|exact IH]. cbn in H, E. subst x. apply attr_exn_ok in H. now rewrite H. }
      now rewrite E.
  Qed.
  Lemma load_lib_inv doc x : load_lib doc = Ok x -> exists lib, is_library doc lib.
  Proof.
    unfold load_lib. destruct (find ["DIDS"] doc) as [d|] eqn:F.
    - apply find_one in F. intros H. apply bind_ok in H as (l & H & _). change (findall1 "DID" d) with (sub "DID" d) in H. apply mapM_ok in H. exists l. right. exists d. split; [exact F|].
      induction H as [|e p es l H L IH]; constructor; [|exact IH]. apply bind_ok in H as (k & K & H). apply Ok_inj in H. subst p. apply attr_exn_ok in K. auto.
    - apply find_none in F. intros _. exists []. left. auto.
  Qed.
  Lemma insts_path var : flat_map (findall1 "DIAGINST") (findall1 "DIAGCLASS" var) = at_path ["DIAGCLASS"; "DIAGINST"] var.
  Proof. subs. change (at_path ["DIAGCLASS"; "DIAGINST"] var) with (flat_map (at_path ["DIAGINST"]) (sub "DIAGCLASS" var)). apply flat_map_ext. intros e. now rewrite at_one. Qed.
  (** What remains of loading for a described document *)
  Lemma load_eq root D : described root D -> exists dss, Forall2 (fun i ds => shows_fields 0 (i_fields i) ds) D dss /\
    load_tree root = mapM (fun p => let '(i, ds) := p in let* m := mk_did ((total (i_fields i) + 7) / 8) (map d_signal ds) in Ok (mkCddDid (i_id i) (text_of (i_name i)) ds m)) (combine D dss).
  Proof.
    intros (doc & ecu & var & types & lib & R1 & R2 & R3 & R4 & R5 & R6). unfold Cdd.load_tree.
    apply find_one in R1. rewrite R1. cbn [bind]. destruct (load_types_ok _ _ R2) as (l & E & M). unfold load_types. rewrite E. cbn [bind].
    rewrite (load_lib_ok _ _ R3). cbn [bind]. subs. destruct R4 as (r & ->). cbn [bind]. apply find_one in R5. rewrite R5. cbn [bind].
    rewrite insts_path. clear - read_int read_float M R6. induction R6 as [|e i es D H F (dss & IH1 & IH2)]; [exists []; split; [constructor|reflexivity]|].
    destruct (load_did_eq _ _ _ _ _ M H) as (ds & S & E). exists (ds :: dss). split; [constructor; assumption|].
    cbn [mapM combine]. rewrite E, IH2. reflexivity.
  Qed.
  Lemma load_inv root l : load_tree root = Ok l -> exists D, described root D.
  Proof.
    unfold Cdd.load_tree. intros H. apply bind_ok in H as (doc & R1 & H). apply bind_ok in H as (ts & R2 & H). apply bind_ok in H as (lib' & R3 & H).
    apply bind_ok in H as (ecu & R4 & H). apply bind_ok in H as (var & R5 & H).
    destruct (find ["ECUDOC"] root) as [doc'|] eqn:F1; [|discriminate]. apply Ok_inj in R1. subst doc'. apply find_one in F1.
    destruct (load_types_inv _ _ R2) as (types & T). destruct (load_types_ok _ _ T) as (tl & E & M). unfold load_types in R2. rewrite E in R2. apply Ok_inj in R2. subst ts.
    destruct (load_lib_inv _ _ R3) as (lib & L). rewrite (load_lib_ok _ _ L) in R3. apply Ok_inj in R3. subst lib'.
    change (findall1 "ECU" doc) with (sub "ECU" doc) in R4. destruct (sub "ECU" doc) as [|ecu' r] eqn:FE; [discriminate|]. apply Ok_inj in R4. subst ecu'.
    destruct (find ["VAR"] ecu) as [var'|] eqn:F5; [|discriminate]. apply Ok_inj in R5. subst var'. apply find_one in F5.
    rewrite insts_path in H. apply mapM_ok in H.
    assert (X : exists D, Forall2 (is_instance types lib) (at_path ["DIAGCLASS"; "DIAGINST"] var) D).
    { clear - read_int read_float H M. induction H as [|e c es l H F (D & IH)]; [exists []; constructor|]. destruct (load_did_inv _ _ _ _ _ M H) as (i & I). exists (i :: D). constructor; assumption. }
    destruct X as (D & X). exists D, doc, ecu, var, types, lib. repeat (split; [first [assumption|now exists r]|]). exact X.
  Qed.

  Lemma load_positive root D l : described root D -> load_tree root = Ok l -> positive D.
  Proof.
    intros HD H. destruct (load_eq _ _ HD) as (dss & F & E). rewrite E in H. clear - read_int read_float H F.
    revert l H. induction F as [|i ds D dss S F IH]; intros l H; [intros i f []|]. cbn [combine mapM] in H. apply bind_ok in H as (c & C & H). apply bind_ok in H as (cs & CS & _).
    apply bind_ok in C as (m & C & _). intros i' f [<-|I] J; [|now apply (IH _ CS i')]. exact (proj1 (shows_formats _ _ _ _ S) (ex_intro _ m C) f J).
  Qed.

  (** ** C68 *)
  (** A file is accepted exactly if it has this form and no field that is used has a negative length. *)
  Theorem C68_accepts : forall root, (exists l, load_tree root = Ok l) <-> exists D, described root D /\ positive D.
  Proof.
    intros root. split.
    - intros (l & H). destruct (load_inv _ _ H) as (D & HD). exists D. split; [exact HD|]. exact (load_positive _ _ _ HD H).
    - intros (D & HD & P). destruct (load_eq _ _ HD) as (dss & F & E). rewrite E. clear - read_int read_float F P.
      induction F as [|i ds D dss S F IH]; [cbn; eauto|]. cbn [combine mapM].
      destruct (proj2 (shows_formats ((total (i_fields i) + 7) / 8) _ _ _ S)) as (m & M); [intros f J; apply (P i f); [now left|exact J]|].
      rewrite M. cbn [bind]. destruct IH as (l & IH); [intros i' f I J; apply (P i' f); [now right|exact J]|]. rewrite IH. cbn. eauto.
  Qed.
  (** The database then has one DID for each instance, in the order of the file, with what the file says about it. *)
  Theorem C68_load : forall root D l, described root D -> load_tree root = Ok l -> Forall2 shows D l.
  Proof.
    intros root D l HD H. destruct (load_eq _ _ HD) as (dss & F & E). rewrite E in H. clear - read_int read_float H F.
    revert l H. induction F as [|i ds D dss S F IH]; intros l H; [apply Ok_inj in H; subst l; constructor|]. cbn [combine mapM] in H.
    apply bind_ok in H as (c & C & H). apply bind_ok in H as (cs & CS & H). apply Ok_inj in H. subst l. constructor; [|now apply IH].
    apply bind_ok in C as (m & M & C). apply Ok_inj in C. subst c. unfold shows. cbn. auto.
  Qed.
  (** Any other file is an error of one of these kinds. *)
  Definition cdd_errors : list exn := [KeyError; ValueError; ParseError; RuntimeError; IndexError; StructError].
  Definition raises {A} (r : result A) : Prop := forall e, r = Err e -> In e cdd_errors.
  Lemma raises_ok {A} (x : A) : raises (Ok x). Proof. discriminate. Qed.
  Lemma raises_err {A} e : In e cdd_errors -> raises (@Err A e). Proof. intros H e' [= <-]. exact H. Qed.
  Lemma raises_bind {A B} (r : result A) (f : A -> result B) : raises r -> (forall x, r = Ok x -> raises (f x)) -> raises (bind r f).
  Proof. destruct r as [x|e]; cbn; intros H G; [now apply G|]. intros e' [= <-]. now apply H. Qed.
  Lemma raises_mapM {A B} (f : A -> result B) l : (forall x, raises (f x)) -> raises (mapM f l).
  Proof. intros H. induction l as [|x l IH]; [apply raises_ok|]. cbn [mapM]. apply raises_bind; [apply H|]. intros y _. apply raises_bind; [exact IH|]. intros; apply raises_ok. Qed.
  Ltac rais := repeat match goal with
    | |- raises (Ok _) => apply raises_ok
    | |- raises (Err _) => apply raises_err; cbn; tauto
    | |- raises (bind _ _) => apply raises_bind; [|intros]
    | |- raises (mapM _ _) => apply raises_mapM; intros
    | |- raises (match ?x with _ => _ end) => destruct x
    | _ => progress unfold attr_exn, int_of, float_of, opt_int
    end.
  Lemma raises_textmaps l : forall acc, raises (load_textmaps read_int l acc).
  Proof. induction l as [|c l IH]; intros acc; cbn [load_textmaps]; rais; apply IH. Qed.
  Lemma raises_datas ts l : forall off, raises (load_datas ts off l).
  Proof.
    induction l as [|e l IH]; intros off; cbn [load_datas]; rais; [|apply IH]. unfold load_data. rais.
    match goal with |- raises (factory ?a ?b ?c false) => destruct (factory_total a b c) as (r & ->) end. apply raises_ok.
  Qed.
  Theorem C68_errors : forall root e, load_tree root = Err e -> In e [KeyError; ValueError; ParseError; RuntimeError; IndexError; StructError].
  Proof.
    intros root. change (raises (load_tree root)). unfold Cdd.load_tree, load_types, load_type, load_choices, load_lib, load_did. rais; try apply raises_textmaps; try apply raises_datas.
    unfold mk_did, create_formats, compile. rais.
  Qed.

  (** *** Layout *)
  Lemma firstn_skipn_in {A} k (l : list A) x : (In x (firstn k l) -> In x l) /\ (In x (skipn k l) -> In x l).
  Proof. rewrite <- (firstn_skipn k l) at 2 4. split; intros H; apply in_app_iff; auto. Qed.
  Lemma Forall2_nth {A B} (R : A -> B -> Prop) l l' : Forall2 R l l' -> forall n x y, nth_error l n = Some x -> nth_error l' n = Some y -> R x y.
  Proof. induction 1 as [|a b l l' H F IH]; intros [|n] x y X Y; try discriminate; cbn in *; [congruence|eauto]. Qed.
  Fixpoint aligned (off : Z) (l : list (chars * type_desc)) : Prop :=
    match l with
    | [] => True
    | f :: r => (td_big (snd f) = true -> in_one_byte off (td_bits (snd f)) \/ whole_bytes off (td_bits (snd f))) /\ aligned (off + td_bits (snd f)) r
    end.
  Lemma total_cons f l : total (f :: l) = td_bits (snd f) + total l. Proof. reflexivity. Qed.
  Lemma total_nonneg l : (forall f, In f l -> 0 < td_bits (snd f)) -> 0 <= total l.
  Proof. induction l as [|f l IH]; intros H; [cbn; lia|]. rewrite total_cons. assert (0 < td_bits (snd f)) by (apply H; now left). assert (0 <= total l) by (apply IH; intros; apply H; now right). lia. Qed.
  Lemma fields_cover fs : forall off ds, shows_fields off fs ds -> aligned off fs -> (forall f, In f fs -> 0 < td_bits (snd f)) ->
    forall k f d, nth_error fs k = Some f -> nth_error ds k = Some d ->
      shows_field (off + total (firstn k fs)) f d /\
      (forall b, occupies (d_signal d) b <-> off + total (firstn k fs) <= b < off + total (firstn k fs) + td_bits (snd f)) /\
      (td_big (snd f) = false \/ in_one_byte (off + total (firstn k fs)) (td_bits (snd f)) ->
       forall j, 0 <= j < td_bits (snd f) -> bit_pos (d_signal d) j = off + total (firstn k fs) + j).
  Proof.
    induction fs as [|f0 fs IH]; intros off [|d0 ds] S A P k f d Hf Hd; try contradiction; [now destruct k|].
    destruct S as (S1 & S2). destruct A as (A1 & A2). destruct k as [|k].
    - injection Hf as ->. injection Hd as ->. cbn [firstn total fold_right]. rewrite Z.add_0_r. split; [exact S1|].
      destruct S1 as (_ & L & B & _ & _ & _ & _ & _ & _ & _ & ST & _). rewrite <- B in ST.
      destruct (C26_cdd_offset (d_signal d) off (td_bits (snd f))) as (X1 & X2); auto; [apply P; now left|now rewrite B|].
      split; [exact X1|]. rewrite <- B. exact X2.
    - cbn [nth_error firstn] in *. rewrite total_cons. replace (off + (td_bits (snd f0) + total (firstn k fs))) with (off + td_bits (snd f0) + total (firstn k fs)) by lia.
      apply (IH (off + td_bits (snd f0)) ds); auto. intros; apply P; now right.
  Qed.
  Lemma shows_length fs : forall off ds, shows_fields off fs ds -> List.length ds = List.length fs.
  Proof. induction fs as [|f fs IH]; intros off [|d ds] S; try contradiction; [reflexivity|]. cbn. f_equal. eapply IH, S. Qed.
  Lemma shows_names fs : forall off ds, shows_fields off fs ds -> map s_name (map d_signal ds) = map (fun f => text_of (fst f)) fs.
  Proof. induction fs as [|f fs IH]; intros off [|d ds] S; try contradiction; [reflexivity|]. destruct S as (S1 & S2). cbn. f_equal; [apply S1|]. eapply IH, S2. Qed.
  Lemma text_inj a b : text_of a = text_of b -> a = b.
  Proof. unfold text_of. intros H. apply (f_equal list_ascii_of_string) in H. now rewrite !list_ascii_of_string_of_list_ascii in H. Qed.
  Lemma little_sorted fs : forall off ds, shows_fields off fs ds -> (forall f, In f fs -> 0 < td_bits (snd f)) ->
    StronglySorted (fun a b => s_start a <= s_start b) (filter (fun s => negb (s_big s)) (map d_signal ds)) /\
    Forall (fun s => off <= s_start s) (filter (fun s => negb (s_big s)) (map d_signal ds)).
  Proof.
    induction fs as [|f fs IH]; intros off [|d ds] S P; try contradiction; [split; constructor|]. destruct S as (S1 & S2).
    destruct (IH _ _ S2) as (I1 & I2); [intros; apply P; now right|]. assert (0 < td_bits (snd f)) by (apply P; now left).
    assert (I3 : Forall (fun s => off <= s_start s) (filter (fun s => negb (s_big s)) (map d_signal ds))) by (eapply Forall_impl; [|exact I2]; cbn; intros; lia).
    cbn [map filter]. destruct (s_big (d_signal d)) eqn:B; cbn [negb]; [auto|].
    destruct S1 as (_ & _ & B' & _ & _ & _ & _ & _ & _ & _ & ST & _). rewrite B in B'. rewrite <- B' in ST. cbn in ST.
    split; constructor; auto; [|lia]. rewrite ST. exact I3.
  Qed.
  Lemma split_total k fs f : nth_error fs k = Some f -> total fs = total (firstn k fs) + td_bits (snd f) + total (skipn (S k) fs).
  Proof.
    revert k. induction fs as [|f0 fs IH]; intros [|k] H; try discriminate.
    - injection H as ->. cbn [firstn skipn]. rewrite total_cons. cbn [total fold_right]. lia.
    - cbn [nth_error firstn skipn] in *. rewrite !total_cons, (IH _ H). lia.
  Qed.
  Lemma firstn_le k k' fs f : (k < k')%nat -> nth_error fs k = Some f -> (forall f, In f fs -> 0 < td_bits (snd f)) -> total (firstn k fs) + td_bits (snd f) <= total (firstn k' fs).
  Proof.
    revert k k'. induction fs as [|f0 fs IH]; intros [|k] [|k'] L H P; try discriminate; try lia.
    - injection H as ->. cbn [firstn]. rewrite total_cons. assert (0 <= total (firstn k' fs)); [|cbn [total fold_right]; lia].
      apply total_nonneg. intros f' I. apply P. right. revert I. apply (firstn_skipn_in k' fs).
    - cbn [nth_error firstn] in *. rewrite !total_cons. assert (k < k')%nat by lia. specialize (IH _ _ H0 H). lapply IH; [lia|]. intros; apply P; now right.
  Qed.
  Lemma layout i c : shows i c -> (forall f, In f (i_fields i) -> 0 < td_bits (snd f)) -> aligned 0 (i_fields i) -> NoDup (map fst (i_fields i)) ->
    did_layout ((total (i_fields i) + 7) / 8) (map d_signal (c_datas c)).
  Proof.
    intros (_ & _ & S & _) P A N. pose proof (total_nonneg _ P) as TN. pose proof (fields_cover _ _ _ S A P) as C.
    assert (NTH : forall s, In s (map d_signal (c_datas c)) -> exists k f d, s = d_signal d /\ nth_error (i_fields i) k = Some f /\ nth_error (c_datas c) k = Some d).
    { intros s I. apply in_map_iff in I as (d & <- & I). apply In_nth_error in I as (k & K). destruct (nth_error (i_fields i) k) as [f|] eqn:F; [eauto 6|].
      exfalso. apply nth_error_None in F. rewrite <- (shows_length _ _ _ S) in F. apply nth_error_None in F. congruence. }
    constructor.
    - apply Z.div_pos; lia.
    - rewrite (shows_names _ _ _ S). clear - N. induction (i_fields i) as [|f l IH]; [constructor|]. cbn in *. inversion N as [|? ? N1 N2]; subst. constructor; [|auto].
      intros I. apply N1. apply in_map_iff in I as (g & E & I). apply text_inj in E. rewrite <- E. now apply in_map.
    - intros s I. destruct (NTH s I) as (k & f & d & -> & F & D). destruct (C k f d F D) as (SF & _). destruct SF as (_ & -> & _). apply P. eapply nth_error_In, F.
    - intros s I b O. destruct (NTH s I) as (k & f & d & -> & F & D). destruct (C k f d F D) as (_ & CO & _). apply CO in O. rewrite (split_total _ _ _ F).
      assert (0 <= total (firstn k (i_fields i))) by (apply total_nonneg; intros f' I'; apply P; revert I'; apply (firstn_skipn_in k)).
      assert (0 <= total (skipn (Datatypes.S k) (i_fields i))) by (apply total_nonneg; intros f' I'; apply P; revert I'; apply (firstn_skipn_in (Datatypes.S k))). lia.
    - intros s t Is It NE b Os Ot. destruct (NTH s Is) as (k & f & d & -> & F & D). destruct (NTH t It) as (k' & f' & d' & -> & F' & D').
      destruct (C k f d F D) as (_ & CO & _). destruct (C k' f' d' F' D') as (_ & CO' & _). apply CO in Os. apply CO' in Ot.
      destruct (Nat.lt_trichotomy k k') as [L|[->|L]].
      + pose proof (firstn_le _ _ _ _ L F P). lia.
      + apply NE. congruence.
      + pose proof (firstn_le _ _ _ _ L F' P). lia.
    - exact (proj1 (little_sorted _ _ _ S P)).
    - intros s I. destruct (NTH s I) as (k & f & d & -> & F & D). destruct (C k f d F D) as (SF & _).
      destruct SF as (_ & _ & _ & _ & _ & _ & _ & _ & _ & _ & _ & ch & _ & FA). do 4 eexists. exact FA.
  Qed.

  (** If every big endian field lies in one byte or consists of whole bytes, the fields lie back to back in the data, in order:
      field k has exactly the bits after those of the fields before it, and the DID is as long as needed for all of them. *)
  Theorem C68_layout : forall root D l n i c, described root D -> load_tree root = Ok l -> nth_error D n = Some i -> nth_error l n = Some c ->
    aligned 0 (i_fields i) ->
    8 * did_length (c_did c) - 8 < total (i_fields i) <= 8 * did_length (c_did c) /\ List.length (c_datas c) = List.length (i_fields i) /\
    forall k f d, nth_error (i_fields i) k = Some f -> nth_error (c_datas c) k = Some d ->
      forall b, occupies (d_signal d) b <-> total (firstn k (i_fields i)) <= b < total (firstn k (i_fields i)) + td_bits (snd f).
  Proof.
    intros root D l n i c HD HL HI HC A.
    pose proof (load_positive _ _ _ HD HL) as P.
    pose proof (C68_load _ _ _ HD HL) as F2. pose proof (Forall2_nth _ _ _ F2 _ _ _ HI HC) as S.
    assert (P' : forall f, In f (i_fields i) -> 0 < td_bits (snd f)) by (intros f I; apply (P i f); [eapply nth_error_In, HI|exact I]).
    destruct S as (_ & _ & S & M). destruct (mk_did_inv _ _ _ M) as (E1 & _ & _). rewrite E1. split.
    - pose proof (total_nonneg _ P'). pose proof (Z.div_mod (total (i_fields i) + 7) 8). pose proof (Z.mod_pos_bound (total (i_fields i) + 7) 8). lia.
    - split; [now apply (shows_length _ 0)|]. intros k f d F X. destruct (fields_cover _ _ _ S A P' k f d F X) as (_ & C & _). exact C.
  Qed.
  (** Raw values that fit their fields are encoded, and decoding gives them back; the bits of a field that is little endian or in
      one byte are in the data from its first bit on. *)
  Theorem C68_round_trip : forall root D l n i c d, described root D -> load_tree root = Ok l -> nth_error D n = Some i -> nth_error l n = Some c ->
    aligned 0 (i_fields i) -> NoDup (map fst (i_fields i)) ->
    (forall f, In f (i_fields i) -> exists v, sget d (text_of (fst f)) = Some (VNum (NInt v)) /\ 0 <= v < 2 ^ td_bits (snd f)) ->
    exists bytes, did_encode (c_did c) d false = Ok bytes /\ zlen bytes = (total (i_fields i) + 7) / 8 /\
      (forall at_ ae, exists out, did_decode (c_did c) bytes false false at_ ae = Ok out /\ map fst out = map (fun f => text_of (fst f)) (i_fields i) /\
         forall f, In f (i_fields i) -> sget out (text_of (fst f)) = sget d (text_of (fst f))) /\
      forall k f v, nth_error (i_fields i) k = Some f -> sget d (text_of (fst f)) = Some (VNum (NInt v)) ->
        td_big (snd f) = false \/ in_one_byte (total (firstn k (i_fields i))) (td_bits (snd f)) ->
        forall j, 0 <= j < td_bits (snd f) -> payload_bit bytes (total (firstn k (i_fields i)) + j) = Z.testbit v j.
  Proof.
    intros root D l n i c d HD HL HI HC A N V. pose proof (load_positive _ _ _ HD HL) as P.
    pose proof (Forall2_nth _ _ _ (C68_load _ _ _ HD HL) _ _ _ HI HC) as SH.
    assert (P' : forall f, In f (i_fields i) -> 0 < td_bits (snd f)) by (intros f I; apply (P i f); [eapply nth_error_In, HI|exact I]).
    pose proof (layout _ _ SH P' A N) as LA. destruct SH as (_ & _ & S & M).
    assert (VAL : forall s, In s (map d_signal (c_datas c)) -> exists v, sget d (s_name s) = Some (VNum (NInt v)) /\ 0 <= v < 2 ^ s_length s /\ conv_is_float (s_conv s) = false /\ s_signed s = false).
    { intros s I. destruct (shows_in _ _ _ _ S I) as (o & f & x & F & -> & SF). destruct (V f F) as (v & V1 & V2).
      destruct SF as (-> & -> & _ & SG & _ & _ & _ & _ & _ & _ & _ & ch & _ & FA). apply factory_float in FA. eauto. }
    destruct (C27_encode _ _ _ d false M LA) as (EI & EB).
    assert (EX : exists bytes, did_encode (c_did c) d false = Ok bytes).
    { apply EI. intros s I. destruct (VAL s I) as (v & V1 & V2 & V3 & V4). exists (VNum (NInt v)), (NInt v), v. split; [exact V1|].
      unfold raw_value, raw_bits, int_fits. rewrite V3, V4. split; [exists v; split; reflexivity|auto]. }
    destruct EX as (bytes & E). exists bytes. split; [exact E|]. destruct (EB _ E) as (B1 & B2 & B3 & _). split; [exact B1|]. split.
    - intros at_ ae. destruct (C27_round_trip _ _ _ d bytes at_ ae M LA) as (out & O1 & O2 & O3); [|exact E|].
      + intros s v I C _. destruct (VAL s I) as (_ & _ & _ & V3 & _). congruence.
      + exists out. split; [exact O1|]. split; [now rewrite O2, (shows_names _ _ _ S)|]. intros f F. destruct (shows_in_field _ _ _ _ S F) as (o & x & X & SF).
        assert (NM : s_name (d_signal x) = text_of (fst f)) by apply SF. rewrite <- NM.
        destruct (VAL _ (in_map d_signal _ _ X)) as (v & V1 & _). rewrite V1. destruct (O3 (d_signal x) _ (NInt v) (in_map d_signal _ _ X) V1) as (O4 & _). apply O4; eauto.
    - intros k f v F FV C j J. destruct (nth_error (c_datas c) k) as [x|] eqn:X.
      2:{ apply nth_error_None in X. rewrite (shows_length _ _ _ S) in X. apply nth_error_None in X. congruence. }
      destruct (fields_cover _ _ _ S A P' k f x F X) as (SF & _ & BP). rewrite Z.add_0_l in BP. rewrite <- (BP C j J).
      assert (I : In (d_signal x) (map d_signal (c_datas c))) by (eapply in_map, nth_error_In, X).
      destruct (B3 _ I) as (w & raw & y & W1 & W2 & W3 & W4). destruct (VAL _ I) as (v' & V1 & _ & V3 & _).
      destruct SF as (NM & L & _). rewrite NM in W1, V1. assert (v' = v) by congruence. subst v'. assert (w = VNum (NInt v)) by congruence. subst w.
      rewrite W4 by lia. unfold raw_value in W2. rewrite V3 in W2. destruct W2 as (z & Z1 & ->). apply Ok_inj in Z1. subst z.
      unfold raw_bits in W3. rewrite V3 in W3. destruct W3 as (_ & ->). reflexivity.
  Qed.

  (** The lookup functions of a database find the last DID of a name or identifier. *)
  Lemma fold_pairs {A K} (eqb : K -> K -> bool) (key : A -> K) (l : list A) : forall d, fold_left (fun d x => dset eqb d (key x) x) l d =
    fold_left (fun d p => dset eqb d (fst p) (snd p)) (map (fun x => (key x, x)) l) d.
  Proof. induction l as [|x l IH]; intros d; [reflexivity|]. cbn. apply IH. Qed.
  Lemma last_pair {A K} (key : A -> K) (l : list A) k c : is_last (map (fun x => (key x, x)) l) k c <-> key c = k /\ exists a b, l = a ++ c :: b /\ ~ In k (map key b).
  Proof.
    split.
    - intros (a & b & E & N). revert a E. induction l as [|x l IH]; intros [|p a] E; cbn in E; try discriminate.
      + injection E as E1 E2 E3. subst. split; [reflexivity|]. exists [], l. split; [reflexivity|]. rewrite map_map in N. exact N.
      + injection E as _ E. destruct (IH _ E) as (K1 & a' & b' & -> & N'). split; [exact K1|]. exists (x :: a'), b'. auto.
    - intros (<- & a & b & -> & N). exists (map (fun x => (key x, x)) a), (map (fun x => (key x, x)) b). split; [now rewrite map_app|]. now rewrite map_map.
  Qed.
  Theorem C68_lookup : forall t db, add_cdd_string t = Ok db -> exists l, load_string t = Ok l /\ g_dids db = l /\
    (forall n c, get_did_by_name db n = Ok c <-> c_name c = n /\ exists a b, l = a ++ c :: b /\ ~ In n (map c_name b)) /\
    (forall id c, get_did_by_identifier db id = Ok c <-> c_id c = id /\ exists a b, l = a ++ c :: b /\ ~ In id (map c_id b)) /\
    (forall n, ~ In n (map c_name l) -> get_did_by_name db n = Err KeyError) /\
    (forall id, ~ In id (map c_id l) -> get_did_by_identifier db id = Err KeyError).
  Proof.
    unfold Cdd.add_cdd_string. intros t db H. apply bind_ok in H as (l & L & H). apply Ok_inj in H. subst db. exists l. split; [exact L|]. split; [reflexivity|].
    assert (LN : forall n c, sget (g_by_name (refresh l)) n = Some c <-> c_name c = n /\ exists a b, l = a ++ c :: b /\ ~ In n (map c_name b)).
    { intros n c. cbn. rewrite fold_pairs, (last_get _ String.eqb_spec), last_pair. cbn. split; [intros [X|[_ [=]]]; exact X|auto]. }
    assert (LI : forall n c, zget (g_by_id (refresh l)) n = Some c <-> c_id c = n /\ exists a b, l = a ++ c :: b /\ ~ In n (map c_id b)).
    { intros n c. cbn. rewrite fold_pairs, (last_get _ Z.eqb_spec), last_pair. cbn. split; [intros [X|[_ [=]]]; exact X|auto]. }
    unfold get_did_by_name, get_did_by_identifier. split; [|split; [|split]].
    - intros n c. rewrite <- LN. destruct (sget _ n); split; congruence.
    - intros n c. rewrite <- LI. destruct (zget _ n); split; congruence.
    - intros n N. destruct (sget _ n) as [c|] eqn:E; [|reflexivity]. apply LN in E. destruct E as (<- & a & b & -> & _). exfalso. apply N. rewrite map_app. apply in_app_iff. right. now left.
    - intros n N. destruct (zget _ n) as [c|] eqn:E; [|reflexivity]. apply LI in E. destruct E as (<- & a & b & -> & _). exfalso. apply N. rewrite map_app. apply in_app_iff. right. now left.
  Qed.
End Cdd.

(** ** Examples *)
Definition ex_float (t : chars) : option spec_float :=
  if chars_eqb t (txt "0.5") then Some (S754_finite false 4503599627370496 (-53)) else if chars_eqb t (txt "-40.0") then Some (S754_finite true 5629499534213120 (-47)) else None.
Definition q (s : string) : string :=
  string_of_list_ascii (map (fun c => if Ascii.eqb c "'" then "034"%char else c) (list_ascii_of_string s)).
Definition ex_type (id bl bo more : string) : string :=
  ("<IDENT id='" ++ id ++ "'><NAME><TUV>t</TUV></NAME><CVALUETYPE bl='" ++ bl ++ "' bo='" ++ bo ++ "' minsz='0' maxsz='255'/>" ++ more ++ "</IDENT>")%string.
Definition ex_obj (name ref : string) : string := ("<DATAOBJ dtref='" ++ ref ++ "'><QUAL>" ++ name ++ "</QUAL></DATAOBJ>")%string.
Definition ex_doc (types lib insts : string) : chars :=
  txt (q ("<CANDELA><ECUDOC><DATATYPES>" ++ types ++ "</DATATYPES><DIDS>" ++ lib ++ "</DIDS><ECU><VAR><DIAGCLASS>" ++ insts ++ "</DIAGCLASS></VAR></ECU></ECUDOC></CANDELA>"))%string.
Definition ex_text : chars := ex_doc
  (ex_type "n4" "4" "21" "" ++ ex_type "w16" "16" "21" "<PVALUETYPE><UNIT>C</UNIT></PVALUETYPE><COMP f='0.5' o='-40.0'/>" ++
   ex_type "l12" "12" "12" "<TEXTMAP s='(0)' e='(0)'><TEXT><TUV>off</TUV><TUV>aus</TUV></TEXT></TEXTMAP><TEXTMAP s='(1)' e='(5)'><TEXT><TUV>on</TUV></TEXT></TEXTMAP>")
  ("<DID id='d1'><STRUCTURE>" ++ ex_obj "C" "l12" ++ "</STRUCTURE></DID>")
  ("<DIAGINST><QUAL>X</QUAL><STATICVALUE v='129'/><SIMPLECOMPCONT>" ++ ex_obj "A" "w16" ++ ex_obj "B" "n4" ++ "<DIDDATAREF didRef='d1'/></SIMPLECOMPCONT></DIAGINST>" ++
   "<DIAGINST><QUAL>Y</QUAL><STATICVALUE v='129'/></DIAGINST>").
Definition ex_root : xml := match read ex_text with Some r => r | None => Elem [] [] [] [] end.
Definition td_n4 := mkTD 4 (Some 0) (Some 255) true None None [].
Definition td_w16 := mkTD 16 (Some 0) (Some 255) true (Some (txt "C")) (Some (S754_finite false 4503599627370496 (-53), S754_finite true 5629499534213120 (-47))) [].
Definition td_l12 := mkTD 12 (Some 0) (Some 255) false None None [(0, 0, txt "off"); (1, 5, txt "on")].
Definition ex_D : list inst_desc := [mkID 129 (txt "X") [(txt "A", td_w16); (txt "B", td_n4); (txt "C", td_l12)]; mkID 129 (txt "Y") []].
Ltac now_first := eexists; vm_compute; reflexivity.
Ltac now_attr := apply (attr_iff int_text ex_float); vm_compute; reflexivity.
Ltac now_tuv := apply tuv_iff; vm_compute; reflexivity.
Ltac eval_list := match goal with |- Forall2 _ ?l _ => let v := eval vm_compute in l in change l with v end.
Ltac now_number := do 2 eexists; split; [now_attr|]; split; [apply strip_iff; vm_compute; reflexivity|vm_compute; reflexivity].
Ltac now_label := split; [now_number|split; [now_number|let E := fresh in intros E; first [discriminate E|now_tuv]]].
Ltac now_type := constructor;
  [eexists; now_tuv|now_attr
  |do 2 eexists; split; [now_first|]; split; [now_attr|]; split; [vm_compute; reflexivity|]; split; [vm_compute; discriminate|];
   split; [eexists; split; [now_attr|vm_compute; reflexivity]|]; split; [eexists; split; [now_attr|vm_compute; reflexivity]|now_attr]
  |first [vm_compute; reflexivity|eexists; split; [now_first|vm_compute; reflexivity]]
  |eval_list; repeat (apply Forall2_cons; [now_label|]); apply Forall2_nil
  |first [vm_compute; reflexivity|do 3 eexists; split; [now_first|]; split; [now_attr|]; split; [vm_compute; reflexivity|]; split; [now_attr|vm_compute; reflexivity]]].
Ltac now_first_text := eexists; split; [now_first|vm_compute; reflexivity].
Example ex_read : read ex_text = Some ex_root.
Proof. vm_compute. reflexivity. Qed.
Example C68_described : described int_text ex_float ex_root ex_D.
Proof.
  exists (hd ex_root (sub "ECUDOC" ex_root)). do 2 eexists.
  exists [(txt "n4", td_n4); (txt "w16", td_w16); (txt "l12", td_l12)].
  exists [(txt "d1", hd ex_root (sub "DID" (hd ex_root (sub "DIDS" (hd ex_root (sub "ECUDOC" ex_root))))))].
  split; [now_first|]. split.
  { eval_list.
    apply Forall2_cons; [now_type|]. apply Forall2_cons; [now_type|]. apply Forall2_cons; [now_type|]. apply Forall2_nil. }
  split. { right. eexists. split; [now_first|]. eval_list. apply Forall2_cons; [split; [now_attr|vm_compute; reflexivity]|apply Forall2_nil]. }
  split; [now_first|]. split; [now_first|].
  eval_list.
  apply Forall2_cons.
  - split; [do 2 eexists; split; [now_first|]; split; [now_attr|vm_compute; reflexivity]|].
    split; [eexists; split; [now_first|vm_compute; reflexivity]|].
    eexists. split.
    + eval_list.
      apply Forall2_cons; [|apply Forall2_nil]. eapply ref_found; [now_attr|]. exists [], []. split; [vm_compute; reflexivity|intros []].
    + eval_list.
      apply Forall2_cons; [|apply Forall2_cons; [|apply Forall2_cons; [|apply Forall2_nil]]]; (split; [eexists; split; [now_attr|]|now_first_text]).
      * exists [(txt "n4", td_n4)], [(txt "l12", td_l12)]. split; [vm_compute; reflexivity|]. vm_compute. intuition discriminate.
      * exists [], [(txt "w16", td_w16); (txt "l12", td_l12)]. split; [vm_compute; reflexivity|]. vm_compute. intuition discriminate.
      * exists [(txt "n4", td_n4); (txt "w16", td_w16)], []. split; [vm_compute; reflexivity|intros []].
  - apply Forall2_cons; [|apply Forall2_nil].
    split; [do 2 eexists; split; [now_first|]; split; [now_attr|vm_compute; reflexivity]|].
    split; [eexists; split; [now_first|vm_compute; reflexivity]|].
    exists []. split; [vm_compute; apply Forall2_nil|vm_compute; apply Forall2_nil].
Qed.
Definition ex_values : list (string * value) := [("A", VNum (NInt 1000)); ("B", VNum (NInt 9)); ("C", VNum (NInt 0xABC))].
Example C68_hypotheses : exists l c, load_string int_text ex_float ex_text = Ok l /\ load_tree int_text ex_float ex_root = Ok l /\
  described int_text ex_float ex_root ex_D /\ nth_error l 0 = Some c /\
  positive ex_D /\ Forall (fun i => aligned 0 (i_fields i) /\ NoDup (map fst (i_fields i))) ex_D /\
  did_encode (c_did c) ex_values false = Ok [0x03; 0xE8; 0xC9; 0xAB] /\
  did_decode (c_did c) [0x03; 0xE8; 0xC9; 0xAB] false false false false = Ok ex_values /\
  did_decode (c_did c) [0x03; 0xE8; 0x09; 0x00] true true false false =
    Ok [("A", VNum (NFlt (S754_finite false 8092405580431360 (-44)))); ("B", VNum (NInt 9)); ("C", VStr "off")].
Proof.
  do 2 eexists. split; [vm_compute; reflexivity|]. split; [vm_compute; reflexivity|]. split; [apply C68_described|]. split; [cbn; reflexivity|]. split.
  { intros i f [<-|[<-|[]]]; cbn; [|contradiction]. intros [<-|[<-|[<-|[]]]]; cbn; lia. }
  split.
  { apply Forall_cons; [|apply Forall_cons; [|apply Forall_nil]]; cbn; (split; [|first [apply NoDup_nil|idtac]]); try exact I.
    - unfold in_one_byte, whole_bytes. cbn. intuition lia.
    - repeat (apply NoDup_cons; [vm_compute; intuition discriminate|]). apply NoDup_nil. }
  split; [vm_compute; reflexivity|]. split; vm_compute; reflexivity.
Qed.
(** Both DIDs of the example have the identifier 129; the second one is found. *)
Example C68_lookup_hypotheses : exists db c, add_cdd_string int_text ex_float ex_text = Ok db /\ get_did_by_identifier db 129 = Ok c /\ c_name c = "Y" /\
  get_did_by_name db "Z" = Err KeyError.
Proof. do 2 eexists. split; [vm_compute; reflexivity|]. split; [vm_compute; reflexivity|]. split; vm_compute; reflexivity. Qed.
Example C68_errors_hypotheses : load_tree int_text ex_float (Elem [] [] [] []) = Err KeyError /\
  load_string int_text ex_float (ex_doc (ex_type "a" "8" "11" "") "" "") = Err ParseError /\
  load_string int_text ex_float (ex_doc (ex_type "a" "0" "21" "") "" "") = Err RuntimeError.
Proof. repeat split; vm_compute; reflexivity. Qed.

(** Without the condition on big endian fields the claim is false: a field of 4 bits and one of 12 bits, 16 bits in all, are both placed on
    the low bits of the first byte, and what encoding makes of them cannot be decoded. *)
Definition over_text : chars := ex_doc (ex_type "n4" "4" "21" "" ++ ex_type "n12" "12" "21" "") ""
  ("<DIAGINST><QUAL>X</QUAL><STATICVALUE v='129'/><SIMPLECOMPCONT>" ++ ex_obj "A" "n4" ++ ex_obj "B" "n12" ++ "</SIMPLECOMPCONT></DIAGINST>").
Definition over_values : list (string * value) := [("A", VNum (NInt 5)); ("B", VNum (NInt 0xABC))].
Theorem C68_unaligned_refuted : exists c a b bytes, load_string int_text ex_float over_text = Ok [c] /\ did_length (c_did c) = 2 /\
  c_datas c = [a; b] /\ occupies (d_signal a) 0 /\ occupies (d_signal b) 0 /\
  did_encode (c_did c) over_values false = Ok bytes /\ did_decode (c_did c) bytes false false false false = Err DecodeError.
Proof.
  do 4 eexists. split; [vm_compute; reflexivity|]. split; [reflexivity|]. split; [cbn; reflexivity|].
  split; [exists 0; vm_compute; intuition congruence|]. split; [exists 4; vm_compute; intuition congruence|].
  split; vm_compute; reflexivity.
Qed.
(** The fields of a union come after all others, even if the union stands first in the file. *)
Definition order_text : chars := ex_doc (ex_type "b" "8" "21" "") ""
  ("<DIAGINST><QUAL>X</QUAL><STATICVALUE v='129'/><SIMPLECOMPCONT><UNION><STRUCT>" ++ ex_obj "A" "b" ++ "</STRUCT></UNION>" ++ ex_obj "B" "b" ++ "</SIMPLECOMPCONT></DIAGINST>").
Theorem C68_order_refuted : exists c, load_string int_text ex_float order_text = Ok [c] /\ map (fun d => s_name (d_signal d)) (c_datas c) = ["B"; "A"].
Proof. eexists. split; vm_compute; reflexivity. Qed.
(** A reference to a DID that the library does not have is no error: the fields are left out, and those after it move forward. *)
Definition ref_text : chars := ex_doc (ex_type "b" "8" "21" "") ""
  ("<DIAGINST><QUAL>X</QUAL><STATICVALUE v='129'/><SIMPLECOMPCONT><DIDDATAREF didRef='d1'/>" ++ ex_obj "B" "b" ++ "</SIMPLECOMPCONT></DIAGINST>").
Theorem C68_reference_refuted : exists c, load_string int_text ex_float ref_text = Ok [c] /\ map (fun d => s_name (d_signal d)) (c_datas c) = ["B"] /\ did_length (c_did c) = 1.
Proof. eexists. split; [vm_compute; reflexivity|]. split; vm_compute; reflexivity. Qed.
