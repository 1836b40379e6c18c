(** XmlProofs: a document that is written is read back, up to its line ends. *)
From Coq Require Import Ascii.
From Verif Require Import Base CSource CNames Regex DecText DbcToken DbcPieces Xml.
Local Open Scope string_scope.
Local Open Scope Z_scope.
Local Open Scope list_scope.

(** ** Elements *)
Fixpoint xml_forall (P : xml -> Prop) (H : forall t a x k, Forall (fun p => P (fst p)) k -> P (Elem t a x k)) (e : xml) : P e :=
  match e with
  | Elem t a x k => H t a x k ((fix go l : Forall (fun p => P (fst p)) l :=
                                  match l with [] => Forall_nil _ | (c, tl) :: r => Forall_cons (c, tl) (xml_forall P H c) (go r) end) k)
  end.

(** Line ends are normalised. *)
Fixpoint normal (e : xml) : xml :=
  match e with
  | Elem t a x k => Elem t a (line_ends x)
                      ((fix go (l : list (xml * chars)) := match l with [] => [] | (c, tl) :: r => (normal c, line_ends tl) :: go r end) k)
  end.
Lemma normal_eq t a x k : normal (Elem t a x k) = Elem t a (line_ends x) (map (fun p => (normal (fst p), line_ends (snd p))) k).
Proof. cbn [normal]. f_equal. induction k as [|[c tl] k IH]; [reflexivity|]. cbn [map fst snd]. now rewrite <- IH. Qed.

Definition name_ok (n : chars) : bool := match n with [] => false | _ => forallb name_char n end.
Definition attr_ok (p : chars * chars) : bool := name_ok (fst p) && forallb legal (snd p).
(** The names are names and all characters are allowed. *)
Fixpoint writable (e : xml) : bool :=
  match e with
  | Elem t a x k => name_ok t && forallb attr_ok a && forallb legal x &&
                    (fix go (l : list (xml * chars)) := match l with [] => true | (c, tl) :: r => writable c && forallb legal tl && go r end) k
  end.
Lemma writable_eq t a x k : writable (Elem t a x k) =
  name_ok t && forallb attr_ok a && forallb legal x && forallb (fun p => writable (fst p) && forallb legal (snd p)) k.
Proof. cbn [writable]. f_equal. induction k as [|[c tl] k IH]; [reflexivity|]. cbn [forallb fst snd]. now rewrite <- IH. Qed.

(** ** Texts *)
Definition no (c : ascii) (l : chars) : bool := forallb (fun x => negb (Ascii.eqb x c)) l.
Lemma no_app c a b : no c (a ++ b) = no c a && no c b. Proof. apply forallb_app. Qed.
Lemma line_ends_app a l : no cr a = true -> line_ends (a ++ l) = a ++ line_ends l.
Proof.
  induction a as [|c a IH]; intros H; [reflexivity|]. cbn [no forallb] in H. apply andb_true_iff in H. destruct H as [H1 H2].
  cbn [app line_ends]. apply negb_true_iff in H1. rewrite H1. f_equal. now apply IH.
Qed.
Lemma line_ends_none a : no cr a = true -> line_ends a = a.
Proof. intros H. rewrite <- (app_nil_r a) at 1. rewrite line_ends_app by exact H. apply app_nil_r. Qed.

Ltac chars_case c := destruct (Ascii.eqb_spec c "&") as [->|?]; [|destruct (Ascii.eqb_spec c "<") as [->|?]; [|destruct (Ascii.eqb_spec c ">") as [->|?]]].
Lemma refs_esc_text c l : references None (esc_text c ++ l) = option_map (cons c) (references None l).
Proof. unfold esc_text. chars_case c; [reflexivity..|]. cbn [app references]. destruct (Ascii.eqb_spec c "&"); [contradiction|reflexivity]. Qed.
Lemma refs_text t : references None (flat_map esc_text t) = Some t.
Proof. induction t as [|c t IH]; [reflexivity|]. cbn [flat_map]. rewrite refs_esc_text, IH. reflexivity. Qed.
Lemma esc_text_cr c : c <> cr -> no cr (esc_text c) = true.
Proof. intros N. unfold esc_text. chars_case c; [reflexivity..|]. cbn. destruct (Ascii.eqb_spec c cr); [contradiction|reflexivity]. Qed.
Lemma esc_text_head c : exists d r, esc_text c = d :: r /\ (c <> lf -> d <> lf) /\ d <> "<"%char.
Proof.
  unfold esc_text. chars_case c; [do 2 eexists; (split; [reflexivity|]); split; [intros _|]; discriminate..|].
  exists c, []. auto.
Qed.
Lemma line_ends_text : forall n t, (List.length t <= n)%nat -> line_ends (flat_map esc_text t) = flat_map esc_text (line_ends t).
Proof.
  induction n as [|n IH]; intros t L; [destruct t; [reflexivity|cbn in L; lia]|].
  destruct t as [|c t]; [reflexivity|]. cbn [flat_map line_ends]. destruct (Ascii.eqb_spec c cr) as [->|N].
  - change (esc_text cr) with [cr]. cbn [app line_ends]. change (Ascii.eqb cr cr) with true. cbn iota.
    destruct t as [|d t]; [reflexivity|]. cbn [flat_map]. destruct (Ascii.eqb_spec d lf) as [->|ND].
    + change (esc_text lf) with [lf]. cbn [app]. change (Ascii.eqb lf lf) with true. cbn iota.
      rewrite IH by (cbn in L; lia). reflexivity.
    + destruct (esc_text_head d) as (x & r & E & HX & _). rewrite E. cbn [app].
      destruct (Ascii.eqb_spec x lf) as [->|_]; [exfalso; now apply HX|].
      change (x :: r ++ flat_map esc_text t) with ((x :: r) ++ flat_map esc_text t). rewrite <- E.
      change (esc_text d ++ flat_map esc_text t) with (flat_map esc_text (d :: t)). rewrite IH by (cbn in *; lia). reflexivity.
  - rewrite line_ends_app by now apply esc_text_cr. rewrite IH by (cbn in L; lia). reflexivity.
Qed.
Lemma read_text_ok t : read_text (flat_map esc_text t) = Some (line_ends t).
Proof. unfold read_text. rewrite (line_ends_text (List.length t)) by lia. apply refs_text. Qed.

Lemma esc_attr_facts c : no cr (esc_attr c) = true /\ no "<" (esc_attr c) = true /\ no quote (esc_attr c) = true /\
  map (fun c => if is_blank c then " "%char else c) (esc_attr c) = esc_attr c /\
  forall l, references None (esc_attr c ++ l) = option_map (cons c) (references None l).
Proof.
  unfold esc_attr.
  destruct (Ascii.eqb_spec c quote) as [->|]; [repeat (split; [reflexivity|]); reflexivity|].
  destruct (Ascii.eqb_spec c cr) as [->|]; [repeat (split; [reflexivity|]); reflexivity|].
  destruct (Ascii.eqb_spec c lf) as [->|]; [repeat (split; [reflexivity|]); reflexivity|].
  destruct (Ascii.eqb_spec c tab) as [->|]; [repeat (split; [reflexivity|]); reflexivity|].
  split; [now apply esc_text_cr|]. unfold esc_text. 
  split; [chars_case c; [reflexivity..|cbn; destruct (Ascii.eqb_spec c "<"); [contradiction|reflexivity]]|].
  split; [chars_case c; [reflexivity..|cbn; destruct (Ascii.eqb_spec c quote); [contradiction|reflexivity]]|].
  split; [|intros l; apply refs_esc_text].
  chars_case c; [reflexivity..|]. cbn [map]. unfold is_blank.
  destruct (Ascii.eqb_spec c " ") as [->|]; [reflexivity|].
  destruct (Ascii.eqb_spec c tab); [contradiction|]. destruct (Ascii.eqb_spec c lf); [contradiction|]. destruct (Ascii.eqb_spec c cr); [contradiction|]. reflexivity.
Qed.
Lemma attr_facts v : no cr (flat_map esc_attr v) = true /\ no "<" (flat_map esc_attr v) = true /\ no quote (flat_map esc_attr v) = true /\
  map (fun c => if is_blank c then " "%char else c) (flat_map esc_attr v) = flat_map esc_attr v /\
  references None (flat_map esc_attr v) = Some v.
Proof.
  induction v as [|c v (I1 & I2 & I3 & I4 & I5)]; [repeat (split; [reflexivity|]); reflexivity|].
  destruct (esc_attr_facts c) as (E1 & E2 & E3 & E4 & E5). cbn [flat_map].
  rewrite !no_app, map_app, E1, E2, E3, E4, E5, I1, I2, I3, I4, I5. repeat (split; [reflexivity|]). reflexivity.
Qed.
Lemma existsb_no c l : no c l = true -> existsb (Ascii.eqb c) l = false.
Proof.
  induction l as [|x l IH]; [reflexivity|]. cbn [no forallb existsb]. intros H. apply andb_true_iff in H. destruct H as [H1 H2].
  apply negb_true_iff in H1. rewrite Ascii.eqb_sym, H1. now apply IH.
Qed.
Lemma read_value_ok v : read_value (flat_map esc_attr v) = Some v.
Proof.
  destruct (attr_facts v) as (E1 & E2 & _ & E4 & E5). unfold read_value. rewrite existsb_no by exact E2. now rewrite line_ends_none, E4, E5.
Qed.

(** ** Start tags *)
Definition stops (p : ascii -> bool) (l : chars) : Prop := match l with [] => True | c :: _ => p c = false end.
Lemma span_app p a l : forallb p a = true -> stops p l -> span p (a ++ l) = (a, l).
Proof.
  induction a as [|c a IH]; cbn [app forallb]; intros H S.
  - destruct l as [|c l]; [reflexivity|]. cbn in *. now rewrite S.
  - apply andb_true_iff in H. destruct H as [H1 H2]. cbn [span]. rewrite H1, IH by assumption. reflexivity.
Qed.
Lemma until_app c a l : no c a = true -> until c (a ++ c :: l) = (a, c :: l).
Proof. intros H. unfold until. apply span_app; [exact H|]. cbn. now rewrite Ascii.eqb_refl. Qed.
Lemma until_end c a : no c a = true -> until c a = (a, []).
Proof. intros H. unfold until. rewrite <- (app_nil_r a) at 1. apply span_app; [exact H|exact I]. Qed.

Lemma name_not x c r : name_ok (c :: r) = true -> name_char x = false -> Ascii.eqb x c = false.
Proof.
  unfold name_ok. cbn [forallb]. intros H X. apply andb_true_iff in H. destruct H as [H _].
  destruct (Ascii.eqb_spec x c) as [->|]; [congruence|reflexivity].
Qed.
Lemma name_blank c r : name_ok (c :: r) = true -> is_blank c = false.
Proof.
  intros H. unfold is_blank. rewrite !(Ascii.eqb_sym c). rewrite !(name_not _ c r) by (exact H || reflexivity). reflexivity.
Qed.

Lemma read_attrs_ok a : forallb attr_ok a = true -> forall fuel r, (List.length a < fuel)%nat ->
  read_attrs fuel (flat_map write_attr a ++ ">"%char :: r) = Some (a, false, r) /\
  read_attrs fuel (flat_map write_attr a ++ txt " />" ++ r) = Some (a, true, r).
Proof.
  induction a as [|[n v] a IH]; intros H fuel r L.
  - destruct fuel as [|fuel]; [cbn in L; lia|]. cbn [flat_map app]. split; reflexivity.
  - cbn [forallb] in H. apply andb_true_iff in H. destruct H as [H1 H2]. unfold attr_ok in H1. cbn [fst snd] in H1.
    apply andb_true_iff in H1. destruct H1 as [HN HV]. destruct fuel as [|fuel]; [cbn in L; lia|].
    assert (G : forall l, read_attrs (S fuel) (flat_map write_attr ((n, v) :: a) ++ l) =
                          match read_attrs fuel (flat_map write_attr a ++ l) with Some (a, e, r) => Some ((n, v) :: a, e, r) | None => None end).
    { intros l. cbn [flat_map]. unfold write_attr at 1. cbn [fst snd app].
      assert (RE : forall x, read_attrs (S fuel) (" "%char :: n ++ txt "=" ++ quote :: x) =
                             let (v, r) := until quote x in
                             match r, read_value v with
                             | _ :: r, Some v => match read_attrs fuel r with Some (a, e, r) => Some ((n, v) :: a, e, r) | None => None end
                             | _, _ => None
                             end).
      { intros x. cbn [read_attrs]. destruct n as [|c n]; [discriminate HN|].
        assert (SP : snd (span is_blank (" "%char :: (c :: n) ++ txt "=" ++ quote :: x)) = (c :: n) ++ txt "=" ++ quote :: x).
        { change (" "%char :: (c :: n) ++ txt "=" ++ quote :: x) with ([" "%char] ++ (c :: n) ++ txt "=" ++ quote :: x).
          rewrite span_app; [reflexivity|reflexivity|]. cbn. now apply (name_blank c n). }
        rewrite SP. cbn [app].
        assert (A1 : after (txt ">") (c :: n ++ txt "=" ++ quote :: x) = None) by (cbn [after txt list_ascii_of_string]; rewrite (name_not _ c n) by (exact HN || reflexivity); reflexivity).
        assert (A2 : after (txt "/>") (c :: n ++ txt "=" ++ quote :: x) = None) by (cbn [after txt list_ascii_of_string]; rewrite (name_not _ c n) by (exact HN || reflexivity); reflexivity).
        cbn [app] in A1, A2. rewrite A1, A2. clear A1 A2.
        change (c :: n ++ txt "=" ++ quote :: x) with ((c :: n) ++ "="%char :: quote :: x).
        rewrite span_app; [|exact HN|reflexivity]. reflexivity. }
      replace (" "%char :: ((n ++ txt "=" ++ quote :: flat_map esc_attr v ++ [quote]) ++ flat_map write_attr a) ++ l)
        with (" "%char :: n ++ txt "=" ++ quote :: flat_map esc_attr v ++ quote :: flat_map write_attr a ++ l).
      2:{ f_equal. rewrite <- !app_assoc. cbn [app]. rewrite <- !app_assoc. reflexivity. }
      rewrite RE. destruct (attr_facts v) as (_ & _ & Q & _). rewrite until_app by exact Q. rewrite read_value_ok. reflexivity. }
    destruct (IH H2 fuel r ltac:(cbn in L; lia)) as [I1 I2]. split; rewrite G; [now rewrite I1|now rewrite I2].
Qed.

(** ** Events *)
Definition chunk (t : chars) : list event := match t with [] => [] | _ => [EText t] end.
Fixpoint events (e : xml) : list event :=
  match e with
  | Elem t a x k =>
      match x, k with
      | [], [] => [EEmpty t a]
      | _, _ => EStart t a :: chunk x ++
                (fix go (l : list (xml * chars)) := match l with [] => [] | (c, tl) :: r => events c ++ chunk tl ++ go r end) k ++ [EEnd t]
      end
  end.
Definition kid_events (k : list (xml * chars)) : list event := flat_map (fun p => events (fst p) ++ chunk (snd p)) k.
Lemma events_eq t a x k : events (Elem t a x k) =
  match x, k with [], [] => [EEmpty t a] | _, _ => EStart t a :: chunk x ++ kid_events k ++ [EEnd t] end.
Proof.
  cbn [events]. assert (E : forall l, (fix go (l : list (xml * chars)) := match l with [] => [] | (c, tl) :: r => events c ++ chunk tl ++ go r end) l = kid_events l).
  { induction l as [|[c tl] l IH]; [reflexivity|]. cbn [kid_events flat_map fst snd]. rewrite IH. now rewrite <- app_assoc. }
  now rewrite E.
Qed.
Definition event_text (v : event) : chars :=
  match v with
  | EStart t a => "<"%char :: t ++ flat_map write_attr a ++ txt ">"
  | EEmpty t a => "<"%char :: t ++ flat_map write_attr a ++ txt " />"
  | EEnd t => txt "</" ++ t ++ txt ">"
  | EText t => flat_map esc_text t
  end.
Definition events_text (l : list event) : chars := flat_map event_text l.
Lemma chunk_text t : events_text (chunk t) = flat_map esc_text t.
Proof. destruct t; [reflexivity|]. unfold events_text, chunk. cbn [flat_map event_text]. apply app_nil_r. Qed.
Lemma write_events e : write e = events_text (events e).
Proof.
  induction e as [t a x k IH] using xml_forall. rewrite events_eq. cbn [write].
  assert (K : (fix go (l : list (xml * chars)) : chars := match l with [] => [] | (e, tail) :: r => write e ++ flat_map esc_text tail ++ go r end) k
              = events_text (kid_events k)).
  { induction IH as [|[c tl] k H _ IHk]; [reflexivity|]. cbn [kid_events flat_map fst snd] in *. unfold events_text in *.
    rewrite !flat_map_app, <- H. fold (events_text (chunk tl)). rewrite chunk_text, IHk. now rewrite <- !app_assoc. }
  rewrite K. clear K IH.
  assert (E : forall y : list event, events_text (EStart t a :: chunk x ++ kid_events k ++ [EEnd t]) =
     "<"%char :: t ++ flat_map write_attr a ++ txt ">" ++ flat_map esc_text x ++ events_text (kid_events k) ++ txt "</" ++ t ++ txt ">").
  { intros _. unfold events_text at 1. cbn [flat_map]. rewrite !flat_map_app. fold (events_text (chunk x)). rewrite chunk_text.
    fold (events_text (kid_events k)). cbn [event_text flat_map]. rewrite app_nil_r. cbn [app]. rewrite <- ?app_assoc. reflexivity. }
  destruct x as [|c x]; [destruct k as [|p k]|]; [|rewrite E by exact []; reflexivity..].
  unfold events_text. cbn [flat_map event_text]. now rewrite app_nil_r.
Qed.

Definition norm_event (v : event) : event := match v with EText t => EText (line_ends t) | v => v end.
Definition event_ok (v : event) : bool :=
  match v with EStart t a | EEmpty t a => name_ok t && forallb attr_ok a | EEnd t => name_ok t | EText t => match t with [] => false | _ => true end end.
Definition is_text (l : list event) : bool := match l with EText _ :: _ => true | _ => false end.
(** Texts are separated. *)
Fixpoint sep (l : list event) : bool := match l with [] => true | v :: r => negb (is_text [v] && is_text r) && sep r end.

Lemma tag_head v r : is_text (v :: r) = false -> exists l, events_text (v :: r) = "<"%char :: l.
Proof. destruct v; cbn; intros H; try discriminate; eauto. Qed.
Lemma no_lt t : no "<" (flat_map esc_text t) = true.
Proof.
  induction t as [|c t IH]; [reflexivity|]. cbn [flat_map]. rewrite no_app, IH, andb_true_r. unfold esc_text.
  chars_case c; [reflexivity..|]. cbn. destruct (Ascii.eqb_spec c "<"); [contradiction|reflexivity].
Qed.
Lemma write_attr_length a : (List.length a <= List.length (flat_map write_attr a))%nat.
Proof. induction a as [|p a IH]; [cbn; lia|]. cbn [flat_map List.length]. rewrite app_length. unfold write_attr at 1. cbn [List.length]. lia. Qed.

Lemma events_nonnil f l : l <> [] -> read_events (S f) l =
      match after (txt "</") l with
      | Some r =>
          let (n, r) := span name_char r in
          match after (txt ">") (snd (span is_blank r)) with
          | Some r => option_map (cons (EEnd n)) (read_events f r)
          | None => None
          end
      | None =>
      match after (txt "<") l with
      | Some r =>
          let (n, r) := span name_char r in
          match n, read_attrs (List.length r) r with
          | _ :: _, Some (a, e, r) => option_map (cons (if e then EEmpty n a else EStart n a)) (read_events f r)
          | _, _ => None
          end
      | None =>
          let (t, r) := until "<" l in
          match read_text t with Some t => option_map (cons (EText t)) (read_events f r) | None => None end
      end end.
Proof. destruct l; [congruence|reflexivity]. Qed.

Lemma start_tag f t l : name_ok t = true -> stops name_char l -> read_events (S f) ("<"%char :: t ++ l) =
  match read_attrs (List.length l) l with
  | Some (a, e, r) => option_map (cons (if e then EEmpty t a else EStart t a)) (read_events f r)
  | None => None
  end.
Proof.
  intros N S. rewrite events_nonnil by discriminate.
  assert (A : after (txt "</") ("<"%char :: t ++ l) = None).
  { cbn [after txt list_ascii_of_string]. change (Ascii.eqb "<" "<") with true. cbn iota. destruct t as [|c t]; [discriminate N|]. cbn [app after]. rewrite (name_not _ c t) by (exact N || reflexivity). reflexivity. }
  rewrite A. change (after (txt "<") ("<"%char :: t ++ l)) with (Some (t ++ l)). cbn iota.
  destruct t as [|c t]; [discriminate N|]. rewrite span_app; [|exact N|exact S].
  destruct (read_attrs (List.length l) l) as [[[a e] r]|]; reflexivity.
Qed.

Lemma read_events_ok l : forall fuel, (List.length l < fuel)%nat -> forallb event_ok l = true -> sep l = true ->
  read_events fuel (events_text l) = Some (map norm_event l).
Proof.
  induction l as [|v l IH]; intros fuel L OK SP; [destruct fuel; [cbn in L; lia|reflexivity]|].
  destruct fuel as [|fuel]; [cbn in L; lia|]. cbn [forallb] in OK. apply andb_true_iff in OK. destruct OK as [OV OK].
  cbn [sep] in SP. apply andb_true_iff in SP. destruct SP as [S1 SP].
  specialize (IH fuel ltac:(cbn in L; lia) OK SP).
  assert (BL : forall r, stops name_char (flat_map write_attr r ++ txt ">" ++ events_text l) /\ stops name_char (flat_map write_attr r ++ txt " />" ++ events_text l)).
  { intros [|p r]; cbn; auto. }
  unfold events_text. cbn [flat_map]. fold (events_text l). destruct v as [t a|t a|t|t]; cbn [event_text map norm_event] in *.
  - apply andb_true_iff in OV. destruct OV as [N A].
    replace (("<"%char :: t ++ flat_map write_attr a ++ txt ">") ++ events_text l) with ("<"%char :: t ++ flat_map write_attr a ++ ">"%char :: events_text l)
      by (cbn [app]; rewrite <- !app_assoc; reflexivity).
    rewrite start_tag; [|exact N|apply BL].
    destruct (read_attrs_ok a A (List.length (flat_map write_attr a ++ ">"%char :: events_text l)) (events_text l)) as [R _].
    { rewrite app_length. cbn [List.length]. pose proof (write_attr_length a). lia. }
    rewrite R, IH. reflexivity.
  - apply andb_true_iff in OV. destruct OV as [N A].
    replace (("<"%char :: t ++ flat_map write_attr a ++ txt " />") ++ events_text l) with ("<"%char :: t ++ flat_map write_attr a ++ txt " />" ++ events_text l)
      by (cbn [app]; rewrite <- !app_assoc; reflexivity).
    rewrite start_tag; [|exact N|apply BL].
    destruct (read_attrs_ok a A (List.length (flat_map write_attr a ++ txt " />" ++ events_text l)) (events_text l)) as [_ R].
    { rewrite app_length. cbn [List.length app txt list_ascii_of_string]. pose proof (write_attr_length a). lia. }
    rewrite R, IH. reflexivity.
  - replace ((txt "</" ++ t ++ txt ">") ++ events_text l) with (txt "</" ++ t ++ ">"%char :: events_text l) by (rewrite <- !app_assoc; reflexivity).
    rewrite events_nonnil by discriminate. change (after (txt "</") (txt "</" ++ t ++ ">"%char :: events_text l)) with (Some (t ++ ">"%char :: events_text l)).
    cbn iota. rewrite span_app; [|destruct t; [discriminate OV|exact OV]|reflexivity]. cbn [span is_blank snd]. cbn [after txt list_ascii_of_string].
    change (is_blank ">") with false. cbn iota. cbn [snd after]. change (Ascii.eqb ">" ">") with true. cbn iota. rewrite IH. reflexivity.
  - destruct t as [|c t]; [discriminate OV|]. destruct (esc_text_head c) as (d & r & E & _ & ND).
    assert (NE : flat_map esc_text (c :: t) ++ events_text l <> []) by (cbn [flat_map]; rewrite E; discriminate).
    rewrite events_nonnil by exact NE.
    assert (A1 : after (txt "</") (flat_map esc_text (c :: t) ++ events_text l) = None).
    { cbn [flat_map]. rewrite E. cbn [app after txt list_ascii_of_string]. destruct (Ascii.eqb_spec "<" d) as [<-|]; [contradiction|reflexivity]. }
    assert (A2 : after (txt "<") (flat_map esc_text (c :: t) ++ events_text l) = None).
    { cbn [flat_map]. rewrite E. cbn [app after txt list_ascii_of_string]. destruct (Ascii.eqb_spec "<" d) as [<-|]; [contradiction|reflexivity]. }
    rewrite A1, A2. clear A1 A2 NE E ND.
    assert (U : until "<" (flat_map esc_text (c :: t) ++ events_text l) = (flat_map esc_text (c :: t), events_text l)).
    { destruct l as [|w l]; [change (events_text []) with (@nil ascii); rewrite app_nil_r; apply until_end, no_lt|].
      cbn [is_text] in S1. destruct (tag_head w l) as [y Y]; [destruct w; cbn in *; congruence|]. rewrite Y. apply until_app, no_lt. }
    rewrite U, read_text_ok, IH. reflexivity.
Qed.

(** ** The tree *)
Lemma chunk_norm t : map norm_event (chunk t) = chunk (line_ends t).
Proof.
  destruct t as [|c t]; [reflexivity|]. cbn [chunk map norm_event]. cbn [line_ends].
  destruct (Ascii.eqb c cr); [destruct t as [|d t]; [reflexivity|destruct (Ascii.eqb d lf); reflexivity]|reflexivity].
Qed.
Lemma build_chunk t a x c tl r o : build (chunk tl ++ r) (add_kid (Elem t a x []) c) o = build r (Elem t a x [(c, tl)]) o /\
  forall k, build (chunk tl ++ r) (add_kid (Elem t a x k) c) o = build r (Elem t a x (k ++ [(c, tl)])) o.
Proof.
  assert (G : forall k, build (chunk tl ++ r) (add_kid (Elem t a x k) c) o = build r (Elem t a x (k ++ [(c, tl)])) o).
  { intros k. destruct tl as [|d tl]; [reflexivity|]. cbn [chunk app build add_kid].
    f_equal. unfold add_text. destruct (k ++ [(c, [])]) as [|q l] eqn:E; [destruct k; discriminate E|]. rewrite <- E.
    rewrite removelast_last, map_app. cbn [map]. rewrite last_last. reflexivity. }
  split; [exact (G [])|exact G].
Qed.
Lemma build_events e : forall top open rest, build (map norm_event (events e) ++ rest) top open = build rest (add_kid top (normal e)) open.
Proof.
  induction e as [t a x k IH] using xml_forall. intros top open rest. rewrite events_eq, normal_eq.
  assert (K : forall k0 rest o, build (map norm_event (kid_events k) ++ rest) (Elem t a (line_ends x) k0) o =
                              build rest (Elem t a (line_ends x) (k0 ++ map (fun p => (normal (fst p), line_ends (snd p))) k)) o).
  { clear rest top open. induction IH as [|[c tl] k H _ IHk]; intros k0 rest o; [cbn; now rewrite app_nil_r|].
    cbn [kid_events flat_map fst snd map]. rewrite !map_app, <- !app_assoc. cbn [fst] in H. rewrite H, chunk_norm.
    destruct (build_chunk t a (line_ends x) (normal c) (line_ends tl) (map norm_event (kid_events k) ++ rest) o) as [_ G]. unfold kid_events in *. rewrite G.
    rewrite IHk. now rewrite <- app_assoc. }
  assert (E : forall top open rest, build (map norm_event (EStart t a :: chunk x ++ kid_events k ++ [EEnd t]) ++ rest) top open =
              build rest (add_kid top (Elem t a (line_ends x) (map (fun p => (normal (fst p), line_ends (snd p))) k))) open).
  { clear rest top open. intros top open rest. cbn [map norm_event app build]. rewrite !map_app, chunk_norm, <- !app_assoc.
    assert (B : forall r, build (chunk (line_ends x) ++ r) (Elem t a [] []) (top :: open) = build r (Elem t a (line_ends x) []) (top :: open)).
    { intros r. destruct (line_ends x) as [|c y]; [reflexivity|]. reflexivity. }
    rewrite B, K. cbn [map norm_event app build x_tag]. rewrite chars_eqb_refl. reflexivity. }
  destruct x as [|c x]; [destruct k as [|p k]|]; [reflexivity|apply E|apply E].
Qed.

Lemma sep_events e : forall rest, sep rest = true -> sep (events e ++ rest) = true /\ is_text (events e ++ rest) = false.
Proof.
  induction e as [t a x k IH] using xml_forall. intros rest S. rewrite events_eq.
  assert (K : forall rest, sep rest = true -> is_text rest = false -> sep (kid_events k ++ rest) = true /\ is_text (kid_events k ++ rest) = false).
  { clear rest S. induction IH as [|[c tl] k H _ IHk]; intros rest S N; [auto|]. cbn [kid_events flat_map fst snd]. rewrite <- !app_assoc.
    destruct (IHk rest S N) as [S1 N1]. cbn [fst] in H. apply H. destruct tl as [|d tl]; [exact S1|].
    change (chunk (d :: tl)) with [EText (d :: tl)]. unfold kid_events in N1, S1.
    cbn [app sep]. rewrite S1, N1. cbn [is_text andb negb]. reflexivity. }
  assert (E : sep ((EStart t a :: chunk x ++ kid_events k ++ [EEnd t]) ++ rest) = true).
  { cbn [app sep is_text andb negb]. rewrite <- !app_assoc. destruct (K ([EEnd t] ++ rest)) as [S1 N1]; [cbn; exact S|reflexivity|].
    destruct x as [|c x]; [exact S1|]. cbn [chunk app sep is_text andb negb] in *. rewrite S1. now destruct (is_text _). }
  destruct x as [|c x]; [destruct k as [|p k]|]; (split; [|reflexivity]); [exact S|exact E|exact E].
Qed.
Lemma events_ok e : writable e = true -> forallb event_ok (events e) = true.
Proof.
  induction e as [t a x k IH] using xml_forall. rewrite writable_eq, events_eq. intros W.
  apply andb_true_iff in W. destruct W as [W WK]. apply andb_true_iff in W. destruct W as [W _]. apply andb_true_iff in W. destruct W as [N A].
  assert (C : forall y, forallb event_ok (chunk y) = true) by (intros [|? ?]; reflexivity).
  assert (K : forallb event_ok (kid_events k) = true).
  { induction IH as [|[c tl] k H _ IHk]; [reflexivity|]. cbn [forallb kid_events flat_map fst snd] in *.
    apply andb_true_iff in WK. destruct WK as [W1 W2]. apply andb_true_iff in W1. destruct W1 as [W1 _].
    rewrite !forallb_app, (H W1), C. now apply IHk. }
  assert (E : forallb event_ok (EStart t a :: chunk x ++ kid_events k ++ [EEnd t]) = true).
  { cbn [forallb event_ok]. rewrite !forallb_app, C, K. cbn [forallb event_ok]. now rewrite N, A. }
  destruct x as [|c x]; [destruct k as [|p k]|]; [|exact E..]. cbn. now rewrite N, A.
Qed.

(** ** Characters *)
Lemma legal_esc_text t : forallb legal t = true -> forallb legal (flat_map esc_text t) = true.
Proof.
  induction t as [|c t IH]; [reflexivity|]. cbn [forallb flat_map]. intros H. apply andb_true_iff in H. destruct H as [H1 H2].
  rewrite forallb_app, IH, andb_true_r by exact H2. unfold esc_text. chars_case c; [reflexivity..|]. cbn. now rewrite H1.
Qed.
Lemma legal_esc_attr t : forallb legal t = true -> forallb legal (flat_map esc_attr t) = true.
Proof.
  induction t as [|c t IH]; [reflexivity|]. cbn [forallb flat_map]. intros H. apply andb_true_iff in H. destruct H as [H1 H2].
  rewrite forallb_app, IH, andb_true_r by exact H2. unfold esc_attr.
  destruct (Ascii.eqb c quote); [reflexivity|]. destruct (Ascii.eqb c cr); [reflexivity|]. destruct (Ascii.eqb c lf); [reflexivity|].
  destruct (Ascii.eqb c tab); [reflexivity|]. unfold esc_text. chars_case c; [reflexivity..|]. cbn. now rewrite H1.
Qed.
Lemma name_legal n : name_ok n = true -> forallb legal n = true.
Proof.
  intros H. assert (G : forallb name_char n = true) by (destruct n; [discriminate H|exact H]). clear H.
  induction n as [|c n IH]; [reflexivity|]. cbn [forallb] in *. apply andb_true_iff in G. destruct G as [G1 G2]. rewrite IH by exact G2.
  rewrite andb_true_r. revert G1. clear. destruct c as [[] [] [] [] [] [] [] []]; vm_compute; congruence.
Qed.
Lemma attrs_legal a : forallb attr_ok a = true -> forallb legal (flat_map write_attr a) = true.
Proof.
  induction a as [|[n v] a IH]; [reflexivity|]. cbn [forallb flat_map]. intros H. apply andb_true_iff in H. destruct H as [H1 H2].
  unfold attr_ok in H1. apply andb_true_iff in H1. destruct H1 as [HN HV]. cbn [fst snd] in *.
  rewrite forallb_app, IH by exact H2. rewrite andb_true_r. unfold write_attr. cbn [fst snd forallb]. rewrite !forallb_app.
  cbn [forallb]. rewrite !forallb_app. rewrite name_legal, legal_esc_attr by assumption. reflexivity.
Qed.
Lemma write_legal e : writable e = true -> forallb legal (write e) = true.
Proof.
  induction e as [t a x k IH] using xml_forall. rewrite writable_eq. intros W.
  apply andb_true_iff in W. destruct W as [W WK]. apply andb_true_iff in W. destruct W as [W X]. apply andb_true_iff in W. destruct W as [N A].
  pose proof (name_legal _ N) as NL. pose proof (attrs_legal _ A) as AL. pose proof (legal_esc_text _ X) as XL.
  cbn [write].
  assert (K : forallb legal ((fix go (l : list (xml * chars)) : chars := match l with [] => [] | (e, tail) :: r => write e ++ flat_map esc_text tail ++ go r end) k) = true).
  { clear X XL. induction IH as [|[c tl] k H _ IHk]; [reflexivity|]. cbn [forallb fst snd] in *.
    apply andb_true_iff in WK. destruct WK as [W1 W2]. apply andb_true_iff in W1. destruct W1 as [W1 WT].
    rewrite !forallb_app, (H W1), (legal_esc_text _ WT). now apply IHk. }
  assert (E : forallb legal ("<"%char :: t ++ flat_map write_attr a ++ txt ">" ++ flat_map esc_text x ++
     (fix go (l : list (xml * chars)) : chars := match l with [] => [] | (e, tail) :: r => write e ++ flat_map esc_text tail ++ go r end) k ++ txt "</" ++ t ++ txt ">") = true).
  { cbn [forallb]. rewrite !forallb_app, NL, AL, XL, K. reflexivity. }
  destruct x as [|c x]; [destruct k as [|p k]|]; [|exact E..].
  cbn [forallb]. rewrite !forallb_app, NL, AL. reflexivity.
Qed.

Lemma blank_legal c : is_blank c = true -> legal c = true.
Proof. destruct c as [[] [] [] [] [] [] [] []]; vm_compute; congruence. Qed.

(** ** A written document is read back. *)
Theorem read_write e tail : writable e = true -> forallb is_blank tail = true -> read (write e ++ flat_map esc_text tail) = Some (normal e).
Proof.
  intros W B. unfold read.
  assert (BE : forall l, forallb is_blank l = true -> forallb legal l = true).
  { intros l H. apply forallb_forall. intros c HI. apply blank_legal. rewrite forallb_forall in H. now apply H. }
  assert (T : write e ++ flat_map esc_text tail = events_text (events e ++ chunk tail)).
  { unfold events_text. rewrite flat_map_app. fold (events_text (events e)). fold (events_text (chunk tail)). now rewrite chunk_text, <- write_events. }
  assert (LG : forallb legal (write e ++ flat_map esc_text tail) = true).
  { rewrite forallb_app, write_legal, legal_esc_text; auto. }
  rewrite LG. cbn [negb]. rewrite T.
  rewrite read_events_ok.
  - rewrite map_app, build_events. cbn [add_kid app]. rewrite chunk_norm.
    change (Elem [] [] [] [(normal e, [])]) with (add_kid (Elem [] [] [] []) (normal e)).
    destruct (build_chunk [] [] [] (normal e) (line_ends tail) [] []) as [G _]. rewrite app_nil_r in G. rewrite G. cbn [build forallb andb].
    assert (NB : forall n l, (List.length l <= n)%nat -> forallb is_blank l = true -> forallb is_blank (line_ends l) = true).
    { induction n as [|n IH]; intros l L H; [destruct l; [reflexivity|cbn in L; lia]|]. destruct l as [|c l]; [reflexivity|].
      cbn [forallb line_ends] in *. apply andb_true_iff in H. destruct H as [H1 H2]. destruct (Ascii.eqb c cr).
      - destruct l as [|d l]; [reflexivity|]. cbn [forallb] in H2. apply andb_true_iff in H2. destruct H2 as [H2 H3].
        destruct (Ascii.eqb d lf); cbn [forallb]; (rewrite IH; [reflexivity|cbn in *; lia|cbn [forallb]; auto]). now rewrite H2, H3.
      - cbn [forallb]. rewrite H1. apply IH; [cbn in L; lia|exact H2]. }
    rewrite (NB _ tail (le_n _) B). reflexivity.
  - rewrite <- T.
    assert (EL : forall l, forallb event_ok l = true -> (List.length l <= List.length (events_text l))%nat).
    { unfold events_text. induction l as [|v l IH]; intros H; [cbn; lia|]. cbn [forallb] in H. apply andb_true_iff in H. destruct H as [H1 H2].
      cbn [flat_map List.length]. rewrite app_length. specialize (IH H2). assert (1 <= List.length (event_text v))%nat; [|lia].
      destruct v as [t a|t a|t|t]; cbn [event_text List.length] in *; try lia.
      - rewrite app_length. cbn. lia.
      - destruct t as [|c t]; [discriminate H1|]. cbn [flat_map]. rewrite app_length. destruct (esc_text_head c) as (d & r & E & _). rewrite E. cbn. lia. }
    rewrite T. apply Nat.lt_succ_r. apply EL. rewrite forallb_app, events_ok by exact W. destruct tail; reflexivity.
  - rewrite forallb_app, events_ok by exact W. destruct tail; reflexivity.
  - apply sep_events. destruct tail; reflexivity.
Qed.
