(** Prop_TreeDraw: property C79, the drawing of the signal tree shows the multiplexing of a message, and can be read. *)
From Coq Require Import Ascii Permutation Sorted.
From Verif Require DbcFit.
From Verif Require Import Base PyNum Conversion Signal Message CSource CNames DecText LayoutSpec CodecSpec DictLemmas TreeProofs Construct CodecThms Strict Examples TreeDraw.
Local Open Scope string_scope.
Local Open Scope Z_scope.
Local Open Scope list_scope.

(** ** Specification: pictures of trees *)
Inductive drawn := Drawn (label : chars) (below : list drawn).
Definition label (n : drawn) : chars := match n with Drawn l _ => l end.
Definition below (n : drawn) : list drawn := match n with Drawn _ k => k end.
(** The rows of a tree from top to bottom, each with its depth *)
Fixpoint rows_of (d : nat) (n : drawn) : list (nat * chars) := match n with Drawn l k => (d, l) :: flat_map (rows_of (S d)) k end.
Definition outline (d : nat) (f : list drawn) : list (nat * chars) := flat_map (rows_of d) f.
(** Somewhere below, before the next row that is less deep, there is a row of depth [c]. *)
Definition goes_on (c : nat) (rest : list (nat * chars)) : Prop := exists a l b, rest = a ++ (c, l) :: b /\ forall x, In x a -> (c < fst x)%nat.
(** Every row has, for each level above it, a bar if the branch of that level goes on below, and then its label. *)
Definition bars (l : list bool) : chars := flat_map (fun b : bool => if b then txt "|   " else txt "    ") l.
Inductive pictured : list (nat * chars) -> list chars -> Prop :=
| pic_end : pictured [] []
| pic_row d l rest lines above : List.length above = d -> (forall c, (c < d)%nat -> (nth c above false = true <-> goes_on c rest)) ->
    pictured rest lines -> pictured ((d, l) :: rest) ((bars above ++ txt "+-- " ++ l) :: lines).

(** The label of an id of a multiplexer has its name, if there is one, and its number. *)
Definition id_label (s : signal) (i : Z) (l : chars) : Prop :=
  match conv_choices (s_conv s) with
  | Some ch => (exists c, zget ch i = Some c /\ l = choice_text c ++ txt " (" ++ decimal i ++ txt ")") \/ zget ch i = None /\ l = decimal i
  | None => l = decimal i
  end.
(** The tree of the message: below each step the signals that this step selects, in the order of the message; below each
    multiplexer its ids in ascending order. *)
Inductive faithful (all : list signal) : option (string * Z) -> list drawn -> Prop :=
| faith st f :
    Forall2 (fun s n => label n = txt (s_name s) /\ exists ids, StronglySorted Z.lt ids /\ (forall i, In i ids <-> s_is_mux s = true /\ known_id all s i) /\
                          Forall2 (fun i n' => id_label s i (label n') /\ faithful all (Some (s_name s, i)) (below n')) ids (below n))
      (filter (below_step st) all) f -> faithful all st f.
(** Names that fit into a line *)
Definition fits (w : Z) (s : signal) : Prop := 0 < Z.of_nat (String.length (s_name s)) <= w - 6.
(** Texts of one line *)
Definition one_line (t : chars) : Prop := ~ In newline t.
Definition one_line_names (m : message) : Prop :=
  forall s, In s (m_signals m) -> one_line (txt (s_name s)) /\ forall ch i c, conv_choices (s_conv s) = Some ch -> zget ch i = Some c -> one_line (choice_text c).

(** ** Forests *)
Lemma forest_ind (P : list drawn -> Prop) : P [] -> (forall l k r, P k -> P r -> P (Drawn l k :: r)) -> forall f, P f.
Proof.
  intros P0 P1. assert (N : forall n, P (below n)).
  { fix IH 1. intros [l k]. cbn [below]. induction k as [|n' r IHr]; [exact P0|]. assert (X := IH n'). destruct n' as [l' k']. apply P1; [exact X|exact IHr]. }
  intros f. exact (N (Drawn [] f)).
Qed.
Lemma outline_cons d l k r : outline d (Drawn l k :: r) = (d, l) :: outline (S d) k ++ outline d r.
Proof. reflexivity. Qed.
Lemma outline_deep f : forall d x, In x (outline d f) -> (d <= fst x)%nat.
Proof.
  induction f as [|l k r K R] using forest_ind; intros d x I; [destruct I|]. rewrite outline_cons in I. destruct I as [<-|I]; [cbn; lia|].
  apply in_app_or in I. destruct I as [I|I]; [apply K in I; lia|now apply R in I].
Qed.
(** The drawing of a forest *)
Fixpoint lines_below (n : drawn) : list chars :=
  match n with
  | Drawn _ k => (fix go (f : list drawn) : list chars := match f with [] => [] | n' :: r => (txt "+-- " ++ label n') :: add_prefix (get_prefix r) (lines_below n') ++ go r end) k
  end.
Definition draw (f : list drawn) : list chars := lines_below (Drawn [] f).
Lemma draw_cons l k r : draw (Drawn l k :: r) = (txt "+-- " ++ l) :: add_prefix (get_prefix r) (draw k) ++ draw r.
Proof. reflexivity. Qed.

(** ** The drawing is the picture *)
Lemma goes_on_skip c a rest : (forall x, In x a -> (c < fst x)%nat) -> (goes_on c (a ++ rest) <-> goes_on c rest).
Proof.
  intros A. split.
  - revert A. induction a as [|x a IH]; intros A; [trivial|]. intros (p & l & b & E & P). destruct p as [|y p]; cbn in E; injection E as -> E.
    + specialize (A _ (or_introl eq_refl)). cbn in A. lia.
    + apply IH; [intros z Z; apply A; now right|]. exists p, l, b. split; [exact E|]. intros z Z. apply P. now right.
  - intros (p & l & b & -> & P). exists (a ++ p), l, b. split; [now rewrite app_assoc|]. intros x I. apply in_app_or in I. destruct I; [now apply A|now apply P].
Qed.
Lemma add_prefix_app p a b : add_prefix p (a ++ b) = add_prefix p a ++ add_prefix p b.
Proof. apply map_app. Qed.
Lemma add_prefix_twice p q l : add_prefix p (add_prefix q l) = add_prefix (p ++ q) l.
Proof. unfold add_prefix. rewrite map_map. apply map_ext. intros x. apply app_assoc. Qed.
Lemma bars_app a b : bars (a ++ b) = bars a ++ bars b.
Proof. unfold bars. now rewrite flat_map_app. Qed.
Lemma prefix_bar {A} (r : list A) : get_prefix r = bars [match r with [] => false | _ => true end].
Proof. destruct r; reflexivity. Qed.
Lemma draw_pictured f : forall above rest lines, (forall c, (c < List.length above)%nat -> (nth c above false = true <-> goes_on c rest)) -> (forall x, hd_error rest = Some x -> (fst x < List.length above)%nat) ->
  pictured rest lines -> pictured (outline (List.length above) f ++ rest) (add_prefix (bars above) (draw f) ++ lines).
Proof.
  induction f as [|l k r K R] using forest_ind; intros above rest lines A H P; [exact P|].
  set (d := List.length above). rewrite outline_cons, draw_cons. cbn [app add_prefix map]. rewrite <- app_assoc. fold (add_prefix (bars above) (add_prefix (get_prefix r) (draw k) ++ draw r)).
  rewrite add_prefix_app, add_prefix_twice, prefix_bar, <- bars_app, <- app_assoc.
  constructor; [reflexivity| |].
  - intros c C. rewrite goes_on_skip by (intros x X; apply outline_deep in X; lia). rewrite goes_on_skip by (intros x X; apply outline_deep in X; lia). now apply A.
  - set (above' := above ++ [match r with [] => false | _ => true end]). assert (L : List.length above' = S d) by (unfold above', d; rewrite app_length; cbn; lia). rewrite <- L.
    apply K.
    + intros c C. rewrite L in C. unfold above'. destruct (Nat.eq_dec c d) as [->|N].
      * rewrite app_nth2 by (unfold d; lia). unfold d at 1. rewrite Nat.sub_diag. cbn [nth]. destruct r as [|[l' k'] r'].
        { split; [discriminate|]. intros (p & y & b & E & Q). cbn in E. exfalso. destruct p as [|x p]; destruct rest as [|z rest]; try discriminate; injection E as -> _.
          - specialize (H _ eq_refl). cbn in H. lia.
          - specialize (H _ eq_refl). specialize (Q _ (or_introl eq_refl)). unfold d in Q. lia. }
        { split; [intros _|reflexivity]. rewrite outline_cons. cbn [app]. exists [], l'. eexists. split; [reflexivity|]. intros x []. }
      * rewrite app_nth1 by (unfold d in *; lia). rewrite goes_on_skip by (intros x X; apply outline_deep in X; lia). apply A. unfold d in *. lia.
    + intros x X. rewrite L. destruct r as [|[l' k'] r']; [specialize (H x X); unfold d; lia|]. rewrite outline_cons in X. injection X as <-. cbn. lia.
    + now apply R.
Qed.

(** ** The picture can be read *)
Lemma bars_inj a : forall b t u, bars a ++ txt "+-- " ++ t = bars b ++ txt "+-- " ++ u -> List.length a = List.length b /\ t = u.
Proof.
  induction a as [|x a IH]; intros [|y b] t u E.
  - split; [reflexivity|]. now injection E.
  - destruct y; discriminate E.
  - destruct x; discriminate E.
  - cbn [bars flat_map] in E. fold (bars a) (bars b) in E. rewrite <- !app_assoc in E. assert (E' : bars a ++ txt "+-- " ++ t = bars b ++ txt "+-- " ++ u) by (destruct x, y; cbn [txt list_ascii_of_string app] in E |- *; congruence).
    apply IH in E'. cbn. intuition.
Qed.
Lemma pictured_rows rows lines : pictured rows lines -> forall rows', pictured rows' lines -> rows = rows'.
Proof.
  induction 1 as [|d l rest lines above L A P IH]; intros rows' Q; inversion Q as [|d' l' rest' lines' above' L' A' P' E1 E2]; subst; [reflexivity|].
  match goal with H : bars _ ++ _ = bars _ ++ _ |- _ => apply bars_inj in H; destruct H as (EL & ->) end. rewrite EL. f_equal. now apply IH.
Qed.
Lemma outline_inj f : forall d g rest rest', (forall x, hd_error rest = Some x -> (fst x < d)%nat) -> (forall x, hd_error rest' = Some x -> (fst x < d)%nat) ->
  outline d f ++ rest = outline d g ++ rest' -> f = g /\ rest = rest'.
Proof.
  induction f as [|l k r K R] using forest_ind; intros d g rest rest' H H' E.
  - destruct g as [|[l' k'] r']; [split; [reflexivity|exact E]|]. rewrite outline_cons in E. cbn [outline flat_map app] in E. subst rest. specialize (H _ eq_refl). cbn in H. lia.
  - destruct g as [|[l' k'] r']; [rewrite outline_cons in E; cbn [outline flat_map app] in E; subst rest'; specialize (H' _ eq_refl); cbn in H'; lia|].
    rewrite !outline_cons in E. cbn [app] in E. injection E as -> E. rewrite <- !app_assoc in E.
    assert (HD : forall q r0 x, (forall y, hd_error r0 = Some y -> (fst y < d)%nat) -> hd_error (outline d q ++ r0) = Some x -> (fst x < S d)%nat).
    { intros q r0 x H0 X. destruct q as [|[l0 k0] q]; [specialize (H0 x X); lia|]. rewrite outline_cons in X. injection X as <-. cbn. lia. }
    apply K in E; [|intros x; now apply HD|intros x; now apply HD]. destruct E as (-> & E). apply R in E; [|exact H|exact H']. destruct E as (-> & ->). now split.
Qed.
Theorem C79_readable f g lines : pictured (outline 0 f) lines -> pictured (outline 0 g) lines -> f = g.
Proof.
  intros P Q. assert (E := pictured_rows _ _ P _ Q). apply (outline_inj f 0%nat g [] []); [discriminate|discriminate|]. now rewrite !app_nil_r.
Qed.

(** ** The model draws the tree of the message *)
Section Level.
  Context (rec : stree -> result (list chars)) (sigs : list signal) (w : Z).
  Definition level_below (r : list (string * option (list (Z * stree)))) (name : string) (sub : option (list (Z * stree))) : result (list chars) :=
    match sub with
    | None => Ok []
    | Some ids => let* sel := get_signal sigs name in let* rows := mapM (fun p => let* ls := rec (snd p) in Ok (fst p, ls)) ids in Ok (add_prefix (get_prefix r) (mux_lines sel (sort_cases rows)))
    end.
  Fixpoint level_go (nodes : list (string * option (list (Z * stree)))) : result (list chars) :=
    match nodes with
    | [] => Ok []
    | (name, sub) :: r => let* b := level_below r name sub in let* line := format_signal_line sigs w name in let* rest := level_go r in Ok (line :: b ++ rest)
    end.
End Level.
Lemma level_eq sigs w nodes : level_lines sigs w (STree nodes) = level_go (level_lines sigs w) sigs w nodes.
Proof.
  cbn [level_lines]. induction nodes as [|[name sub] r IH]; [reflexivity|]. cbn [level_go]. rewrite <- IH. f_equal. unfold level_below. destruct sub as [ids|]; [|reflexivity].
  destruct (get_signal sigs name) as [sel|]; [|reflexivity]. cbn [bind]. f_equal. clear. induction ids as [|[i t] r IH]; [reflexivity|]. cbn [mapM fst snd]. rewrite IH. destruct (level_lines sigs w t); reflexivity.
Qed.
Lemma line_fits all w s : names_unique all -> In s all -> fits w s -> format_signal_line all w (s_name s) = Ok (txt "+-- " ++ txt (s_name s)).
Proof.
  intros U I (F1 & F2). unfold format_signal_line. rewrite (get_signal_in all s U I). cbn [bind]. unfold wrap_word. destruct (Z.leb_spec (w - 2) 0); [lia|].
  assert (L : List.length (txt (s_name s)) = String.length (s_name s)) by (unfold txt; clear; induction (s_name s); cbn; congruence).
  destruct (txt (s_name s)) as [|c t] eqn:E; [cbn in L; lia|]. rewrite <- E in *. rewrite firstn_all2 by lia. rewrite skipn_all2 by lia. reflexivity.
Qed.
Lemma desc_label s i : id_label s i (multiplexer_desc s i).
Proof. unfold id_label, multiplexer_desc. destruct (conv_choices (s_conv s)) as [ch|]; [|reflexivity]. destruct (zget ch i) as [c|]; [left; eauto|right; auto]. Qed.
Lemma mux_draw s rows : mux_lines s (map (fun p => (fst p, draw (snd p))) rows) = draw (map (fun p => Drawn (multiplexer_desc s (fst p)) (snd p)) rows).
Proof.
  induction rows as [|[i f] r IH]; [reflexivity|]. cbn [map fst snd mux_lines]. rewrite draw_cons, IH. f_equal. f_equal. destruct r; reflexivity.
Qed.
Lemma sort_map {A B} (h : A -> B) l : sort_cases (map (fun p : Z * A => (fst p, h (snd p))) l) = map (fun p => (fst p, h (snd p))) (sort_cases l).
Proof.
  unfold sort_cases. induction l as [|x l IH]; [reflexivity|]. cbn [map sorted_py fold_right]. unfold sorted_py in IH. rewrite IH. set (q := fold_right _ [] l). clear. induction q as [|y q IH]; [reflexivity|]. cbn [map insert_sorted fst].
  destruct (fst x <=? fst y); [reflexivity|]. cbn [map]. now rewrite IH.
Qed.
Lemma sort_keys {A} (l : list (Z * A)) : NoDup (map fst l) -> StronglySorted Z.lt (map fst (sort_cases l)) /\ Permutation (sort_cases l) l.
Proof.
  intros N. assert (P : Permutation (sort_cases l) l) by apply sorted_py_perm. split; [|exact P].
  assert (S : StronglySorted (fun a b : Z * A => (fst a <=? fst b) = true) (sort_cases l)) by (apply sorted_py_sorted; intros; lia).
  assert (N' : NoDup (map fst (sort_cases l))) by (apply (Permutation_NoDup (Permutation_map fst (Permutation_sym P)) N)). clear - S N'.
  induction S as [|x r S IH F]; [constructor|]. cbn in N'. inversion N' as [|? ? NI N2]; subst. cbn [map]. constructor; [now apply IH|]. rewrite Forall_forall in *. intros y Y. apply in_map_iff in Y. destruct Y as (z & <- & Z). specialize (F z Z).
  assert (fst x <> fst z) by (intros E; apply NI; rewrite E; now apply in_map). cbn in F. lia.
Qed.
Lemma codec_drawn all n w p mid c : names_unique all -> (forall s, In s all -> fits w s) -> wfc all n p mid c -> forall st,
  (p = None /\ mid = None /\ st = None) \/ (exists name i, p = Some name /\ mid = Some i /\ st = Some (name, i)) ->
  exists f, level_lines all w (create_signal_tree c) = Ok (draw f) /\ faithful all st f.
Proof.
  intros U FT W. induction W as [p mid fm muxes HF ND SH CO SUB IH]. intros st HST.
  assert (EH : filter (belongs p mid) all = filter (below_step st) all) by (apply filter_ext; intros s; now apply belongs_below).
  rewrite signal_tree_eq, level_eq.
  assert (G : exists f, level_go (level_lines all w) all w (map (fun s => (s_name s, option_map (map (fun ic => (fst ic, create_signal_tree (snd ic)))) (sget muxes (s_name s)))) (filter (belongs p mid) all)) = Ok (draw f) /\
    Forall2 (fun s n => label n = txt (s_name s) /\ exists ids, StronglySorted Z.lt ids /\ (forall i, In i ids <-> s_is_mux s = true /\ known_id all s i) /\
                          Forall2 (fun i n' => id_label s i (label n') /\ faithful all (Some (s_name s, i)) (below n')) ids (below n)) (filter (belongs p mid) all) f).
  { assert (IN : forall s, In s (filter (belongs p mid) all) -> In s (filter (belongs p mid) all)) by trivial. revert IN. generalize (filter (belongs p mid) all) at 1 3 4 as l.
    induction l as [|s l IHl]; intros IN; [exists []; split; [reflexivity|constructor]|].
    destruct (IHl (fun x X => IN x (or_intror X))) as (f & EF & FF). pose proof (IN s (or_introl eq_refl)) as Hs. assert (Ia : In s all) by (apply filter_In in Hs; tauto).
    assert (B : exists k, (forall r, level_below (level_lines all w) all r (s_name s) (option_map (map (fun ic => (fst ic, create_signal_tree (snd ic)))) (sget muxes (s_name s))) = Ok (add_prefix (get_prefix r) (draw k))) /\
      exists ids, StronglySorted Z.lt ids /\ (forall i, In i ids <-> s_is_mux s = true /\ known_id all s i) /\ Forall2 (fun i n' => id_label s i (label n') /\ faithful all (Some (s_name s, i)) (below n')) ids k).
    { destruct (sget muxes (s_name s)) as [bs|] eqn:E; cbn [option_map level_below].
      - apply (get_in _ sspec) in E. destruct (SH _ _ E) as (s' & Hs' & En & Em & Ek & _). assert (s' = s) by (apply (NoDup_map_inj s_name all); auto; apply filter_In in Hs'; tauto). subst s'.
        assert (R : exists fs, mapM (fun q : Z * stree => let* ls := level_lines all w (snd q) in Ok (fst q, ls)) (map (fun ic => (fst ic, create_signal_tree (snd ic))) bs) = Ok (map (fun q => (fst q, draw (snd q))) fs) /\
                    map fst fs = map fst bs /\ forall i g, In (i, g) fs -> faithful all (Some (s_name s, i)) g).
        { assert (SB : forall i c', In (i, c') bs -> exists g, level_lines all w (create_signal_tree c') = Ok (draw g) /\ faithful all (Some (s_name s, i)) g).
          { intros i c' I. apply (IH _ _ i c' E I). right. eauto. }
          clear - SB. induction bs as [|[i c'] bs IHb]; [exists []; split; [reflexivity|]; split; [reflexivity|]; intros i g []|]. destruct (SB i c' (or_introl eq_refl)) as (g & EG & FG). destruct IHb as (fs & E1 & E2 & E3); [intros j d J; apply SB; now right|].
          exists ((i, g) :: fs). cbn [map mapM fst snd]. rewrite EG. cbn [bind]. rewrite E1. cbn [bind]. split; [reflexivity|]. split; [now rewrite E2|]. intros j h [[= <- <-]|J]; [exact FG|now apply E3]. }
        destruct R as (fs & E1 & E2 & E3). exists (map (fun q => Drawn (multiplexer_desc s (fst q)) (snd q)) (sort_cases fs)). split.
        + intros r. rewrite (get_signal_in all s U Ia). cbn [bind]. rewrite E1. cbn [bind]. now rewrite sort_map, mux_draw.
        + assert (NB : NoDup (map fst fs)) by (rewrite E2, Ek; apply children_ids_spec). destruct (sort_keys fs NB) as (SS & PP). exists (map fst (sort_cases fs)). split; [exact SS|]. split.
          * intros i. rewrite (Permutation_in' (eq_refl i) (Permutation_map fst PP)), E2, Ek. rewrite (children_known all s i). tauto.
          * assert (F : forall i g, In (i, g) (sort_cases fs) -> faithful all (Some (s_name s, i)) g) by (intros i g I; apply E3; now apply (Permutation_in _ PP)). clear - F.
            induction (sort_cases fs) as [|[i g] q IHq]; constructor; [cbn [fst snd label below]; split; [apply desc_label|apply F; now left]|]. apply IHq. intros j h J. apply F. now right.
      - exists []. split; [intros r; reflexivity|]. exists []. split; [constructor|]. split; [|constructor]. intros i. split; [intros []|]. intros (M & K). apply children_known in K.
        destruct (CO s Hs M) as (bs & X); [intros N; now rewrite N in K|]. rewrite (in_get _ sspec _ _ _ ND X) in E. discriminate. }
    destruct B as (k & EB & FB). exists (Drawn (txt (s_name s)) k :: f). cbn [map level_go]. rewrite EB. cbn [bind]. rewrite (line_fits all w s U Ia (FT s Ia)). cbn [bind]. rewrite EF. cbn [bind]. split.
    - rewrite draw_cons. f_equal. f_equal. f_equal. f_equal. destruct l; [inversion FF|inversion FF]; reflexivity.
    - constructor; [split; [reflexivity|exact FB]|exact FF]. }
  destruct G as (f & E & F). exists f. split; [exact E|]. constructor. now rewrite <- EH.
Qed.

Theorem C79_drawing m w : strict_message m -> (forall s, In s (m_signals m) -> fits w s) ->
  exists f lines, signal_tree_string m w = Ok (join_lines (txt "-- {root}" :: map (fun l => txt "   " ++ l) lines)) /\ pictured (outline 0 f) lines /\ faithful (m_signals m) None f.
Proof.
  intros SM FT. destruct (strict_message_ok m SM) as [OK _].
  destruct (codec_drawn (m_signals m) (m_length m) w None None (m_codec m) (mo_names _ OK) FT (mo_wfc _ OK) None (or_introl (conj eq_refl (conj eq_refl eq_refl)))) as (f & E & F).
  exists f, (draw f). split; [|split; [|exact F]].
  - unfold signal_tree_string, tree_lines. rewrite (mo_tree _ OK), E. reflexivity.
  - pose proof (draw_pictured f [] [] [] ltac:(cbn; intros; lia) ltac:(discriminate) pic_end) as P. rewrite !app_nil_r in P. replace (add_prefix (bars []) (draw f)) with (draw f) in P; [exact P|]. symmetry. apply map_id.
Qed.

(** ** Messages with the same drawing have the same signals below the same ids. *)
(** What is said about the signal [x] by the multiplexing of a message: it is in the frame if these multiplexers have these
    values. *)
Definition selected (m : message) (path : list (string * Z)) (x : string) : Prop :=
  exists last s, mux_path (m_signals m) None path last /\ In s (m_signals m) /\ below_step last s = true /\ s_name s = x.

Lemma F2_left {A B} (R : A -> B -> Prop) a b : Forall2 R a b -> forall x, In x a -> exists y, In y b /\ R x y.
Proof. induction 1 as [|x y a b H F IH]; intros z I; [destruct I|]. destruct I as [<-|I]; [exists y; split; [now left|exact H]|]. destruct (IH z I) as (t & T & U). exists t. split; [now right|exact U]. Qed.
Lemma F2_right {A B} (R : A -> B -> Prop) a b : Forall2 R a b -> forall y, In y b -> exists x, In x a /\ R x y.
Proof. induction 1 as [|x y a b H F IH]; intros z I; [destruct I|]. destruct I as [<-|I]; [exists x; split; [now left|exact H]|]. destruct (IH z I) as (t & T & U). exists t. split; [now right|exact U]. Qed.
Lemma txt_inj a b : txt a = txt b -> a = b.
Proof. unfold txt. intros H. rewrite <- (string_of_list_ascii_of_string a), <- (string_of_list_ascii_of_string b). now rewrite H. Qed.
Definition id_of (l : chars) (i : Z) : Prop := l = decimal i \/ exists t, l = t ++ txt " (" ++ decimal i ++ txt ")".
Lemma digits_plain c i : is_digit c = false -> c <> "-"%char -> ~ In c (decimal i).
Proof.
  intros D M I. assert (P : forall z, 0 <= z -> ~ In c (decimal z)).
  { intros z Z X. pose proof (decimal_digits z Z) as F. rewrite forallb_forall in F. apply F in X. congruence. }
  destruct (Z.le_gt_cases 0 i) as [H|H]; [exact (P i H I)|]. rewrite decimal_neg in I by lia. destruct I as [E|I]; [congruence|]. revert I. apply P. lia.
Qed.
Lemma cut {A} (c : A) a : forall b x y, ~ In c a -> ~ In c b -> a ++ c :: x = b ++ c :: y -> a = b.
Proof.
  induction a as [|u a IH]; intros [|v b] x y NA NB E; cbn in E.
  - reflexivity.
  - injection E as -> _. elim NB. now left.
  - injection E as -> _. elim NA. now left.
  - injection E as -> E. f_equal. apply (IH b x y); [intros I; apply NA; now right|intros I; apply NB; now right|exact E].
Qed.
Lemma id_fun l i j : id_of l i -> id_of l j -> i = j.
Proof.
  assert (X : forall t i j, t ++ txt " (" ++ decimal i ++ txt ")" = decimal j -> False).
  { intros t a b E. apply (digits_plain "("%char b); [reflexivity|discriminate|]. rewrite <- E. apply in_or_app. right. right. now left. }
  intros [->|(t & ->)] [E|(u & E)].
  - now apply decimal_inj in E.
  - symmetry in E. now apply X in E.
  - now apply X in E.
  - apply (f_equal (@rev ascii)) in E. rewrite !rev_app_distr in E. cbn [txt list_ascii_of_string rev app] in E. rewrite <- !app_assoc in E. injection E as E. cbn [app] in E. apply cut in E.
    + apply (f_equal (@rev ascii)) in E. rewrite !rev_involutive in E. now apply decimal_inj in E.
    + rewrite <- in_rev. now apply digits_plain.
    + rewrite <- in_rev. now apply digits_plain.
Qed.
Lemma label_id s i l : id_label s i l -> id_of l i.
Proof. unfold id_label, id_of. destruct (conv_choices (s_conv s)) as [ch|]; [|now left]. intros [(c & _ & ->)|(_ & ->)]; [right; eauto|now left]. Qed.
Inductive shown : list drawn -> list (string * Z) -> string -> Prop :=
| sh_here f n x : In n f -> label n = txt x -> shown f [] x
| sh_step f n n' name i path x : In n f -> label n = txt name -> In n' (below n) -> id_of (label n') i -> shown (below n') path x -> shown f ((name, i) :: path) x.
Lemma faithful_shown all : names_unique all -> forall path st f x, faithful all st f ->
  (shown f path x <-> exists last s, mux_path all st path last /\ In s all /\ below_step last s = true /\ s_name s = x).
Proof.
  intros U. induction path as [|[name i] path IH]; intros st f x F; inversion F as [? ? FF E1 E2]; subst; split.
  - intros H. inversion H as [? n ? I L|]; subst. destruct (F2_right _ _ _ FF n I) as (s & S & L' & _). apply filter_In in S. exists st, s. split; [constructor|]. split; [tauto|]. split; [tauto|]. apply txt_inj. congruence.
  - intros (last & s & P & I & B & <-). inversion P; subst. destruct (F2_left _ _ _ FF s (proj2 (filter_In _ _ _) (conj I B))) as (n & N & L & _). now apply (sh_here f n).
  - intros H. inversion H as [|? n n' ? ? ? ? I L I' D S]; subst. destruct (F2_right _ _ _ FF n I) as (s & Q & L' & ids & _ & K & G). apply filter_In in Q.
    destruct (F2_right _ _ _ G n' I') as (j & J & LJ & FJ). assert (j = i) by (apply (id_fun (label n')); [now apply (label_id s)|exact D]). subst j. assert (name = s_name s) as -> by (apply txt_inj; congruence).
    apply (IH _ _ _ FJ) in S. destruct S as (last & y & P & Y). exists last, y. split; [|exact Y]. apply K in J. now apply path_cons.
  - intros (last & y & P & Y). inversion P as [|? s ? ? ? I B M K P']; subst. destruct (F2_left _ _ _ FF s (proj2 (filter_In _ _ _) (conj I B))) as (n & N & L & ids & _ & KK & G).
    destruct (F2_left _ _ _ G i (proj2 (KK i) (conj M K))) as (n' & N' & LI & FI). apply (sh_step f n n'); [exact N|exact L|exact N'|now apply (label_id s)|]. apply (IH _ _ _ FI). eauto.
Qed.
(** Lines without line ends *)
Lemma join_inj a : forall b, (forall l, In l a -> one_line l) -> (forall l, In l b -> one_line l) -> a <> [] -> b <> [] -> join_lines a = join_lines b -> a = b.
Proof.
  induction a as [|x a IH]; intros [|y b] A B NA NB E; try congruence. assert (XL : one_line x) by (apply A; now left). assert (YL : one_line y) by (apply B; now left).
  destruct a as [|x' a], b as [|y' b]; cbn [join_lines] in E.
  - now rewrite E.
  - exfalso. apply XL. rewrite E. apply in_or_app. right. now left.
  - exfalso. apply YL. rewrite <- E. apply in_or_app. right. now left.
  - assert (XY : x = y) by (apply (cut newline x y _ _ XL YL E)). subst y. f_equal. apply IH; [intros l I; apply A; now right|intros l I; apply B; now right|discriminate|discriminate|]. apply app_inv_head in E. now injection E.
Qed.
Lemma pictured_lines rows lines : pictured rows lines -> (forall x, In x rows -> one_line (snd x)) -> forall l, In l lines -> one_line l.
Proof.
  induction 1 as [|d l rest lines above L A P IH]; intros O t I; [destruct I|]. destruct I as [<-|I]; [|apply (IH (fun x X => O x (or_intror X)) t I)].
  assert (OL : one_line l) by (apply (O (d, l)); now left). intros X. apply in_app_or in X. destruct X as [X|X].
  - unfold bars in X. apply in_flat_map in X. destruct X as ([|] & _ & X); cbn in X; intuition discriminate.
  - apply in_app_or in X. destruct X as [X|X]; [cbn in X; intuition discriminate|exact (OL X)].
Qed.
Lemma faithful_lines m : one_line_names m -> forall f st d, faithful (m_signals m) st f -> forall x, In x (outline d f) -> one_line (snd x).
Proof.
  intros O. assert (N : forall n, forall st d, faithful (m_signals m) st (below n) -> forall x, In x (outline d (below n)) -> one_line (snd x)); [|intros f; exact (N (Drawn [] f))].
  assert (P : forall k, (forall n, In n k -> forall st d, faithful (m_signals m) st (below n) -> forall x, In x (outline d (below n)) -> one_line (snd x)) /\
                        (forall n n', In n k -> In n' (below n) -> forall st d, faithful (m_signals m) st (below n') -> forall x, In x (outline d (below n')) -> one_line (snd x))).
  2: { intros n st d. exact (proj1 (P [n]) n (or_introl eq_refl) st d). }
  assert (D : forall f, (forall n n', In n f -> In n' (below n) -> forall st d, faithful (m_signals m) st (below n') -> forall x, In x (outline d (below n')) -> one_line (snd x)) ->
              forall st d, faithful (m_signals m) st f -> forall x, In x (outline d f) -> one_line (snd x)).
  { intros f H st d F x X. inversion F as [? ? FF E1 E2]; subst. unfold outline in X. apply in_flat_map in X. destruct X as (n & I & X). destruct (F2_right _ _ _ FF n I) as (s & S & L & ids & _ & _ & G). apply filter_In in S. destruct S as (S & _).
    destruct n as [l k]. cbn [label below] in *. cbn [rows_of] in X. destruct X as [<-|X]; [cbn; rewrite L; now apply O|]. apply in_flat_map in X. destruct X as (n' & I' & X). destruct (F2_right _ _ _ G n' I') as (i & _ & LI & FI).
    destruct n' as [l' k']. cbn [label below] in *. cbn [rows_of] in X. destruct X as [<-|X]; [cbn|exact (H (Drawn l k) (Drawn l' k') I I' _ _ FI x X)].
    assert (DG : one_line (decimal i)) by (apply digits_plain; [reflexivity|discriminate]). unfold id_label in LI. destruct (conv_choices (s_conv s)) as [ch|] eqn:EC; [|now rewrite LI]. destruct LI as [(c & Z & ->)|(_ & ->)]; [|exact DG].
    intros X. apply in_app_or in X. destruct X as [X|X]; [exact (proj2 (O s S) ch i c EC Z X)|]. apply in_app_or in X. destruct X as [X|X]; [cbn in X; intuition discriminate|]. apply in_app_or in X. destruct X as [X|X]; [exact (DG X)|cbn in X; intuition discriminate]. }
  intros k. induction k as [|l k r (K1 & K2) (R1 & R2)] using forest_ind; [split; intros n; [intros []|intros n' []]|].
  split.
  - intros n [<-|I] st d; [|now apply R1]. cbn [below]. apply D. exact K2.
  - intros n n' [<-|I] I' st d; [|now apply (R2 n)]. cbn [below] in I'. now apply K1.
Qed.
Theorem C79_same_drawing m m' w w' : strict_message m -> strict_message m' -> (forall s, In s (m_signals m) -> fits w s) -> (forall s, In s (m_signals m') -> fits w' s) ->
  one_line_names m -> one_line_names m' -> signal_tree_string m w = signal_tree_string m' w' -> forall path x, selected m path x <-> selected m' path x.
Proof.
  intros SM SM' FT FT' O O' E path x. destruct (C79_drawing m w SM FT) as (f & ls & D & P & F). destruct (C79_drawing m' w' SM' FT') as (f' & ls' & D' & P' & F').
  rewrite D, D' in E. assert (OI : forall a b : chars, Ok a = Ok b -> a = b) by (intros a b X; now injection X). apply OI in E. apply join_inj in E; [| | |discriminate|discriminate].
  - apply (f_equal (@tl chars)) in E. cbn [tl] in E. assert (EL : ls = ls').
    { clear - E. revert ls' E. induction ls as [|a ls IH]; intros [|b ls'] E; try discriminate; [reflexivity|]. cbn [map] in E. injection E as E1 E2. cbn in E1. f_equal; [congruence|now apply IH]. }
    subst ls'. assert (f' = f) by (now apply (C79_readable f' f ls)). subst f'. unfold selected.
    rewrite <- (faithful_shown (m_signals m) (mo_names _ (proj1 (strict_message_ok m SM))) path None f x F). now apply faithful_shown; [apply (mo_names _ (proj1 (strict_message_ok m' SM')))|].
  - assert (LN := pictured_lines _ _ P (faithful_lines m O f None 0%nat F)). intros l [<-|I]; [intros X; cbn in X; intuition discriminate|]. apply in_map_iff in I. destruct I as (t & <- & I). intros X. apply in_app_or in X. destruct X as [X|X]; [cbn in X; intuition discriminate|exact (LN t I X)].
  - assert (LN := pictured_lines _ _ P' (faithful_lines m' O' f' None 0%nat F')). intros l [<-|I]; [intros X; cbn in X; intuition discriminate|]. apply in_map_iff in I. destruct I as (t & <- & I). intros X. apply in_app_or in X. destruct X as [X|X]; [cbn in X; intuition discriminate|exact (LN t I X)].
Qed.

(** ** The value tables: those of the signals that have one, in the order of the message, each with ascending values *)
Inductive tables : list signal -> list chars -> Prop :=
| tab_end : tables [] []
| tab_none s r ls : (forall c, conv_choices (s_conv s) = Some c -> c = []) -> tables r ls -> tables (s :: r) ls
| tab_some s r ls c sorted : conv_choices (s_conv s) = Some c -> c <> [] -> Permutation sorted c -> StronglySorted Z.lt (map fst sorted) -> tables r ls ->
    tables (s :: r) ([] :: txt (s_name s) :: map (fun p => txt "    " ++ decimal (fst p) ++ txt " " ++ choice_text (snd p)) sorted ++ ls).
Theorem C79_choices m : (forall s c, In s (m_signals m) -> conv_choices (s_conv s) = Some c -> NoDup (map fst c)) ->
  exists ls, signal_choices_string m = join_lines ls /\ tables (m_signals m) ls.
Proof.
  intros N. exists (choices_lines m). split; [reflexivity|]. unfold choices_lines. induction (m_signals m) as [|s r IH]; [constructor|]. cbn [flat_map]. assert (T := IH (fun s' c I => N s' c (or_intror I))). specialize (N s).
  destruct (conv_choices (s_conv s)) as [[|p c]|] eqn:E.
  - apply tab_none; [congruence|exact T].
  - destruct (sort_keys (p :: c) (N _ (or_introl eq_refl) eq_refl)) as (S & P). exact (tab_some s r _ (p :: c) (sort_cases (p :: c)) E ltac:(discriminate) P S T).
  - apply tab_none; [congruence|exact T].
Qed.

(** ** A concrete case *)
Definition tree_sigs : list signal := [
  mkSignal "Mode" 0 4 false false (conv_of (NInt 1) (NInt 0) (Some onoff) false) None None true None None;
  mkSignal "Sub" 8 3 false false plain_conv None None true (Some [1]) (Some "Mode");
  muxed "Speed" 16 8 false true plain_conv [12; 3] "Sub";
  muxed "Gear" 32 8 false false plain_conv [1; 9] "Mode";
  sig "State" 48 8 false false plain_conv ]%string.
Definition tree_msg : message :=
  match mk_message 291 false "Tree" 8 255 tree_sigs true SortDefault with Ok m => m | Err _ => mkMessage 0 false "" 0 0 [] false (Codec [] (Formats.mkFormats [] [] 0) []) (STree []) end.
Lemma tree_strict : strict_message tree_msg.
Proof.
  exists 291, false, "Tree"%string, 8, 255, tree_sigs. split; [vm_compute; reflexivity|]. split; [lia|]. split; [apply names_nodup; vm_compute; reflexivity|]. split; intros s H.
  - repeat (destruct H as [<-|H]; [cbn; lia|]). contradiction.
  - repeat (destruct H as [<-|H]; [cbn [s_conv sig muxed]; apply built_conv_of; eexists; vm_compute; reflexivity|]). contradiction.
Qed.
Definition tree_shown : list string :=
  ["-- {root}";
   "   +-- Mode";
   "   |   +-- Off (0)";
   "   |   +-- On (1)";
   "   |   |   +-- Sub";
   "   |   |   |   +-- 3";
   "   |   |   |   |   +-- Speed";
   "   |   |   |   +-- 12";
   "   |   |   |       +-- Speed";
   "   |   |   +-- Gear";
   "   |   +-- Bad (7)";
   "   |   +-- 9";
   "   |       +-- Gear";
   "   +-- State"].
Definition dict_keys (s : signal) : bool := match conv_choices (s_conv s) with Some c => DbcFit.nodup_by Z.eqb (map fst c) | None => true end.
Definition named_texts (s : signal) : list chars := txt (s_name s) :: match conv_choices (s_conv s) with Some c => map (fun p => choice_text (snd p)) c | None => [] end.
Example C79_hypotheses : strict_message tree_msg /\ (forall s, In s (m_signals tree_msg) -> fits 80 s) /\ one_line_names tree_msg /\
  (forall s c, In s (m_signals tree_msg) -> conv_choices (s_conv s) = Some c -> NoDup (map fst c)) /\
  signal_tree_string tree_msg 80 = Ok (join_lines (map txt tree_shown)) /\
  signal_choices_string tree_msg = join_lines (map txt [""; "Mode"; "    0 Off"; "    1 On"; "    7 Bad"]) /\
  selected tree_msg [("Mode", 1); ("Sub", 12)] "Speed".
Proof.
  assert (S : m_signals tree_msg = tree_sigs) by (vm_compute; reflexivity). split; [exact tree_strict|]. rewrite S. split; [|split; [|split; [|split; [vm_compute; reflexivity|split; [vm_compute; reflexivity|]]]]].
  - intros s H. repeat (destruct H as [<-|H]; [unfold fits; cbn; lia|]). contradiction.
  - assert (T : forallb (fun s => forallb (fun t => negb (existsb (Ascii.eqb newline) t)) (named_texts s)) tree_sigs = true) by (vm_compute; reflexivity).
    assert (T' : forall s t, In s tree_sigs -> In t (named_texts s) -> one_line t).
    { intros s t I J X. rewrite forallb_forall in T. specialize (T s I). rewrite forallb_forall in T. specialize (T t J). apply negb_true_iff in T.
      assert (Y : existsb (Ascii.eqb newline) t = true) by (apply existsb_exists; exists newline; split; [exact X|apply Ascii.eqb_refl]). congruence. }
    intros s H. rewrite S in H. split; [apply (T' s); [exact H|now left]|]. intros ch i c E Z. apply (T' s); [exact H|]. right. rewrite E. apply (get_in _ zspec) in Z. apply (in_map (fun p => choice_text (snd p)) _ _ Z).
  - assert (T : forallb dict_keys tree_sigs = true) by (vm_compute; reflexivity). intros s c I E. rewrite forallb_forall in T. specialize (T s I). unfold dict_keys in T. rewrite E in T. now apply (DbcFit.nodup_by_spec Z.eqb Z.eqb_spec).
  - exists (Some ("Sub", 12)). exists (muxed "Speed" 16 8 false true plain_conv [12; 3] "Sub"). rewrite S. split; [|repeat split; right; right; now left].
    apply (path_cons _ None (mkSignal "Mode" 0 4 false false (conv_of (NInt 1) (NInt 0) (Some onoff) false) None None true None None) 1); [now left|reflexivity|reflexivity| |].
    { left. exists (mkSignal "Sub" 8 3 false false plain_conv None None true (Some [1]) (Some "Mode")), [1]. repeat split; [right; now left|now left]. }
    apply (path_cons _ (Some ("Mode", 1)) (mkSignal "Sub" 8 3 false false plain_conv None None true (Some [1]) (Some "Mode")) 12); [right; now left|reflexivity|reflexivity| |constructor].
    left. exists (muxed "Speed" 16 8 false true plain_conv [12; 3] "Sub"), [12; 3]. repeat split; [right; right; now left|now left].
Qed.
(** A name that does not fit into the line is broken, and the rest of it stands there without the bars of the tree. *)
Definition broken_shown : list string :=
  ["-- {root}";
   "   +-- Mode";
   "   |   +-- Off (0)";
   "   |   +-- On (1)";
   "   |   |   +-- Sub";
   "   |   |   |   +-- 3";
   "   |   |   |   |   +-- Spee";
   "             d";
   "   |   |   |   +-- 12";
   "   |   |   |       +-- Spee";
   "             d";
   "   |   |   +-- Gear";
   "   |   +-- Bad (7)";
   "   |   +-- 9";
   "   |       +-- Gear";
   "   +-- Stat";
   "             e"].
Lemma pictured_plus rows lines : pictured rows lines -> forall l, In l lines -> In "+"%char l.
Proof. induction 1 as [|d l rest lines above L A P IH]; intros t I; [destruct I|]. destruct I as [<-|I]; [apply in_or_app; right; now left|now apply IH]. Qed.
Theorem C79_broken_name_refuted : exists m t, strict_message m /\ signal_tree_string m 10 = Ok t /\
  forall rows lines, (forall x, In x rows -> one_line (snd x)) -> pictured rows lines -> t <> join_lines (txt "-- {root}" :: map (fun l => txt "   " ++ l) lines).
Proof.
  exists tree_msg, (join_lines (map txt broken_shown)). split; [exact tree_strict|]. split; [vm_compute; reflexivity|]. intros rows lines O P E. apply join_inj in E; [| | |discriminate|discriminate].
  - assert (I : In (txt "             d") (map (fun l => txt "   " ++ l) lines)).
    { apply (f_equal (@tl chars)) in E. cbn [tl] in E. rewrite <- E. change (tl (map txt broken_shown)) with (map txt (tl broken_shown)). apply in_map. cbn [tl broken_shown]. do 6 right. now left. }
    apply in_map_iff in I. destruct I as (l & EL & I). apply (pictured_plus _ _ P) in I. assert (X : In "+"%char (txt "             d")) by (rewrite <- EL; apply in_or_app; now right). cbn in X. intuition discriminate.
  - assert (T : forallb (fun t => negb (existsb (Ascii.eqb newline) (txt t))) broken_shown = true) by (vm_compute; reflexivity). intros l I X. apply in_map_iff in I. destruct I as (t & <- & I). rewrite forallb_forall in T. specialize (T t I). apply negb_true_iff in T.
    assert (Y : existsb (Ascii.eqb newline) (txt t) = true) by (apply existsb_exists; exists newline; split; [exact X|apply Ascii.eqb_refl]). congruence.
  - assert (LN := pictured_lines _ _ P O). intros l [<-|I]; [intros X; cbn in X; intuition discriminate|]. apply in_map_iff in I. destruct I as (t & <- & I). intros X. apply in_app_or in X. destruct X as [X|X]; [cbn in X; intuition discriminate|exact (LN t I X)].
Qed.
