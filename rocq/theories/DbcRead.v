(** DbcRead: what is read from the file that is written for a database that fits. *)
From Coq Require Import Ascii Permutation.
From Verif Require Import Base CSource CNames DictLemmas Regex DecText DbcNames Prop_DbcNames DbcToken DbcLex DbcStmt DbcPieces DbcParse DbcGrammar DbcDump DbcLoad DbcTables DbcFit DbcWrite.
Local Open Scope string_scope.
Local Open Scope Z_scope.
Local Open Scope list_scope.

(** ** The statements of one keyword *)
Definition all_of (k : string) (l : list stmt) : Prop := forall s, In s l -> keyword s = k.
Lemma get_all k l : all_of k l -> get_stmts k l = l.
Proof.
  unfold get_stmts. induction l as [|s l IH]; intros H; [reflexivity|]. cbn [filter]. rewrite (H s) by (left; reflexivity). rewrite String.eqb_refl.
  f_equal. apply IH. intros x I. apply H. right. exact I.
Qed.
Lemma get_other k k' l : all_of k' l -> String.eqb k' k = false -> get_stmts k l = [].
Proof.
  unfold get_stmts. induction l as [|s l IH]; intros H E; [reflexivity|]. cbn [filter]. rewrite (H s) by (left; reflexivity). rewrite E.
  apply IH; [|exact E]. intros x I. apply H. right. exact I.
Qed.
Lemma get_app_stmts k a b : get_stmts k (a ++ b) = get_stmts k a ++ get_stmts k b.
Proof. apply filter_app. Qed.
Lemma all_map {A} k (f : A -> stmt) l : (forall x, keyword (f x) = k) -> all_of k (map f l).
Proof. intros H s I. apply in_map_iff in I. destruct I as (x & <- & _). apply H. Qed.
Lemma all_flat {A} k (f : A -> list stmt) l : (forall x, all_of k (f x)) -> all_of k (flat_map f l).
Proof. intros H s I. apply in_flat_map in I. destruct I as (x & _ & I). apply (H x s I). Qed.
Lemma all_app k a b : all_of k a -> all_of k b -> all_of k (a ++ b).
Proof. intros A B s I. apply in_app_iff in I. destruct I; auto. Qed.
Lemma all_nil k : all_of k []. Proof. intros s []. Qed.
Lemma all_one k s : keyword s = k -> all_of k [s]. Proof. intros H x [<-|[]]. exact H. Qed.
Record sections (f : dbc_file) : Prop := {
  sc_tables : all_of "VAL_TABLE_" (df_tables f); sc_messages : all_of "BO_" (df_messages f); sc_senders : all_of "BO_TX_BU_" (df_senders f);
  sc_envvars : all_of "EV_" (df_envvars f); sc_comments : all_of "CM_" (df_comments f); sc_definitions : all_of "BA_DEF_" (df_definitions f);
  sc_rel_definitions : all_of "BA_DEF_REL_" (df_rel_definitions f); sc_defaults : all_of "BA_DEF_DEF_" (df_defaults f);
  sc_rel_defaults : all_of "BA_DEF_DEF_REL_" (df_rel_defaults f); sc_attributes : all_of "BA_" (df_attributes f);
  sc_rel_attributes : all_of "BA_REL_" (df_rel_attributes f); sc_choices : all_of "VAL_" (df_choices f); sc_types : all_of "SIG_VALTYPE_" (df_types f);
  sc_groups : all_of "SIG_GROUP_" (df_groups f); sc_muxes : all_of "SG_MUL_VAL_" (df_muxes f) }.
Lemma get_cons k s l : get_stmts k (s :: l) = if String.eqb (keyword s) k then s :: get_stmts k l else get_stmts k l.
Proof. reflexivity. Qed.
Lemma get_any k k' l : all_of k' l -> get_stmts k l = if String.eqb k' k then l else [].
Proof. intros H. destruct (String.eqb_spec k' k) as [<-|N]; [apply get_all, H|]. apply (get_other k k'); [exact H|]. apply String.eqb_neq, N. Qed.
Section Sections.
  Context (f : dbc_file) (H : sections f).
  Local Notation pick k' l k := (if String.eqb k' k then l else []).
  Lemma get_sections k : get_stmts k (file_stmts f) =
    get_stmts k [SVersion (df_version f); SNs; SBs; SNodes (df_nodes f)] ++
    pick "VAL_TABLE_" (df_tables f) k ++ pick "BO_" (df_messages f) k ++ pick "BO_TX_BU_" (df_senders f) k ++ pick "EV_" (df_envvars f) k ++
    pick "CM_" (df_comments f) k ++ pick "BA_DEF_" (df_definitions f) k ++ pick "BA_DEF_REL_" (df_rel_definitions f) k ++ pick "BA_DEF_DEF_" (df_defaults f) k ++
    pick "BA_DEF_DEF_REL_" (df_rel_defaults f) k ++ pick "BA_" (df_attributes f) k ++ pick "BA_REL_" (df_rel_attributes f) k ++ pick "VAL_" (df_choices f) k ++
    pick "SIG_VALTYPE_" (df_types f) k ++ pick "SIG_GROUP_" (df_groups f) k ++ pick "SG_MUL_VAL_" (df_muxes f) k.
  Proof.
    change (file_stmts f) with ([SVersion (df_version f); SNs; SBs; SNodes (df_nodes f)] ++ file_body f). unfold file_body. rewrite !get_app_stmts.
    rewrite (get_any k _ _ (sc_tables _ H)), (get_any k _ _ (sc_messages _ H)), (get_any k _ _ (sc_senders _ H)), (get_any k _ _ (sc_envvars _ H)),
      (get_any k _ _ (sc_comments _ H)), (get_any k _ _ (sc_definitions _ H)), (get_any k _ _ (sc_rel_definitions _ H)), (get_any k _ _ (sc_defaults _ H)),
      (get_any k _ _ (sc_rel_defaults _ H)), (get_any k _ _ (sc_attributes _ H)), (get_any k _ _ (sc_rel_attributes _ H)), (get_any k _ _ (sc_choices _ H)),
      (get_any k _ _ (sc_types _ H)), (get_any k _ _ (sc_groups _ H)), (get_any k _ _ (sc_muxes _ H)). reflexivity.
  Qed.
  Lemma get_version : get_stmts "VERSION" (file_stmts f) = [SVersion (df_version f)]. Proof. rewrite get_sections. cbn. rewrite ?app_nil_r. reflexivity. Qed.
  Lemma get_nodes : get_stmts "BU_" (file_stmts f) = [SNodes (df_nodes f)]. Proof. rewrite get_sections. cbn. rewrite ?app_nil_r. reflexivity. Qed.
  Lemma get_tables : get_stmts "VAL_TABLE_" (file_stmts f) = df_tables f. Proof. rewrite get_sections. cbn. rewrite ?app_nil_r. reflexivity. Qed.
  Lemma get_messages : get_stmts "BO_" (file_stmts f) = df_messages f. Proof. rewrite get_sections. cbn. rewrite ?app_nil_r. reflexivity. Qed.
  Lemma get_senders : get_stmts "BO_TX_BU_" (file_stmts f) = df_senders f. Proof. rewrite get_sections. cbn. rewrite ?app_nil_r. reflexivity. Qed.
  Lemma get_envvars : get_stmts "EV_" (file_stmts f) = df_envvars f. Proof. rewrite get_sections. cbn. rewrite ?app_nil_r. reflexivity. Qed.
  Lemma get_comments : get_stmts "CM_" (file_stmts f) = df_comments f. Proof. rewrite get_sections. cbn. rewrite ?app_nil_r. reflexivity. Qed.
  Lemma get_definitions : get_stmts "BA_DEF_" (file_stmts f) = df_definitions f. Proof. rewrite get_sections. cbn. rewrite ?app_nil_r. reflexivity. Qed.
  Lemma get_rel_definitions : get_stmts "BA_DEF_REL_" (file_stmts f) = df_rel_definitions f. Proof. rewrite get_sections. cbn. rewrite ?app_nil_r. reflexivity. Qed.
  Lemma get_defaults : get_stmts "BA_DEF_DEF_" (file_stmts f) = df_defaults f. Proof. rewrite get_sections. cbn. rewrite ?app_nil_r. reflexivity. Qed.
  Lemma get_rel_defaults : get_stmts "BA_DEF_DEF_REL_" (file_stmts f) = df_rel_defaults f. Proof. rewrite get_sections. cbn. rewrite ?app_nil_r. reflexivity. Qed.
  Lemma get_attributes : get_stmts "BA_" (file_stmts f) = df_attributes f. Proof. rewrite get_sections. cbn. rewrite ?app_nil_r. reflexivity. Qed.
  Lemma get_rel_attributes : get_stmts "BA_REL_" (file_stmts f) = df_rel_attributes f. Proof. rewrite get_sections. cbn. rewrite ?app_nil_r. reflexivity. Qed.
  Lemma get_choices : get_stmts "VAL_" (file_stmts f) = df_choices f. Proof. rewrite get_sections. cbn. rewrite ?app_nil_r. reflexivity. Qed.
  Lemma get_types : get_stmts "SIG_VALTYPE_" (file_stmts f) = df_types f. Proof. rewrite get_sections. cbn. rewrite ?app_nil_r. reflexivity. Qed.
  Lemma get_groups : get_stmts "SIG_GROUP_" (file_stmts f) = df_groups f. Proof. rewrite get_sections. cbn. rewrite ?app_nil_r. reflexivity. Qed.
  Lemma get_muxes : get_stmts "SG_MUL_VAL_" (file_stmts f) = df_muxes f. Proof. rewrite get_sections. cbn. rewrite ?app_nil_r. reflexivity. Qed.
End Sections.

(** ** What a list of statements contributes *)
Definition yields {A} (f : stmt -> result (list A)) (l : list stmt) (xs : list A) : Prop := exists r, mapM f l = Ok r /\ List.concat r = xs.
Lemma yields_nil {A} (f : stmt -> result (list A)) : yields f [] []. Proof. exists []. split; reflexivity. Qed.
Lemma yields_cons {A} (f : stmt -> result (list A)) s l x xs : f s = Ok x -> yields f l xs -> yields f (s :: l) (x ++ xs).
Proof. intros H (r & R & <-). exists (x :: r). cbn [mapM List.concat]. rewrite H. cbn [bind]. rewrite R. split; reflexivity. Qed.
Lemma yields_one {A} (f : stmt -> result (list A)) s x : f s = Ok x -> yields f [s] x.
Proof. intros H. rewrite <- (app_nil_r x). apply yields_cons; [exact H|apply yields_nil]. Qed.
Lemma yields_app {A} (f : stmt -> result (list A)) a b x y : yields f a x -> yields f b y -> yields f (a ++ b) (x ++ y).
Proof.
  intros (r & R & <-) H. revert r R. induction a as [|s a IH]; intros r R.
  - injection R as <-. exact H.
  - cbn [mapM] in R. destruct (f s) as [v|] eqn:E; [|discriminate R]. cbn [bind] in R. destruct (mapM f a) as [vs|]; [|discriminate R]. injection R as <-.
    cbn [app List.concat]. rewrite <- app_assoc. apply yields_cons; [exact E|]. apply IH. reflexivity.
Qed.
Lemma yields_flat {A B} (f : stmt -> result (list A)) (h : B -> list stmt) (g : B -> list A) l : (forall x, In x l -> yields f (h x) (g x)) ->
  yields f (flat_map h l) (flat_map g l).
Proof.
  induction l as [|x l IH]; intros H; [apply yields_nil|]. cbn [flat_map]. apply yields_app; [apply H; left; reflexivity|]. apply IH. intros y I. apply H. right. exact I.
Qed.
Lemma yields_map {A B} (f : stmt -> result (list A)) (h : B -> stmt) (g : B -> A) l : (forall x, In x l -> f (h x) = Ok [g x]) -> yields f (map h l) (map g l).
Proof.
  induction l as [|x l IH]; intros H; [apply yields_nil|]. cbn [map]. apply (yields_cons _ _ _ [g x]); [apply H; left; reflexivity|]. apply IH. intros y I. apply H. right. exact I.
Qed.
Lemma collect_yields {A} (f : stmt -> result (list A)) k l xs : yields f (get_stmts k l) xs -> collect f k l = Ok xs.
Proof. intros (r & R & <-). unfold collect. rewrite R. reflexivity. Qed.

Lemma nodup_flat {A B K} (f : A -> list B) (key : A -> K) (kb : B -> K) l : NoDup (map key l) -> (forall x, In x l -> NoDup (f x)) ->
  (forall x y, In x l -> In y (f x) -> kb y = key x) -> NoDup (flat_map f l).
Proof.
  induction l as [|x l IH]; intros N H K1; [constructor|]. cbn [map] in N. apply NoDup_cons_iff in N. destruct N as [N1 N2]. cbn [flat_map].
  assert (D : forall y, In y (f x) -> ~ In y (flat_map f l)).
  { intros y I J. apply in_flat_map in J. destruct J as (z & J & I'). apply N1. rewrite <- (K1 x y) by (auto; left; reflexivity).
    rewrite (K1 z y) by (auto; right; exact J). apply in_map, J. }
  specialize (H x (or_introl eq_refl)) as Hx. assert (R : NoDup (flat_map f l)).
  { apply IH; [exact N2| |]; intros; [apply H; right; assumption|apply K1; [right|]; assumption]. }
  clear - D Hx R. induction (f x) as [|y r IH]; [exact R|]. cbn [app]. apply NoDup_cons_iff in Hx. destruct Hx as [H1 H2]. constructor.
  - rewrite in_app_iff. intros [I|I]; [exact (H1 I)|]. exact (D y (or_introl eq_refl) I).
  - apply IH; [|exact H2]. intros z I. apply D. right. exact I.
Qed.
Lemma nodup_app {A} (a b : list A) : NoDup a -> NoDup b -> (forall x, In x a -> ~ In x b) -> NoDup (a ++ b).
Proof.
  induction a as [|x a IH]; intros A1 B1 D; [exact B1|]. cbn [app]. apply NoDup_cons_iff in A1. destruct A1 as [A1 A2]. constructor.
  - rewrite in_app_iff. intros [I|I]; [exact (A1 I)|]. exact (D x (or_introl eq_refl) I).
  - apply IH; [exact A2|exact B1|]. intros y I. apply D. right. exact I.
Qed.
Lemma nodup_map_of {A B C} (f : A -> B) (g : B -> C) l : NoDup (map f l) -> (forall x y, g x = g y -> x = y) -> NoDup (map (fun x => g (f x)) l).
Proof. intros N I. rewrite <- map_map. apply FinFun.Injective_map_NoDup; [exact I|exact N]. Qed.
