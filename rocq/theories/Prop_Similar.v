(** C85: the inexact comparison of databases. *)
From Coq Require Import Ascii Reals Lra Floats.SpecFloat.
From Flocq Require Import Core.
From Verif Require Import Base PyNum CSource FloatReal Similar.
Local Open Scope string_scope.
Local Open Scope nat_scope.
Local Open Scope list_scope.

(** ** Specification *)
Section Spec.
  Context (heap : list obj) (tolerance : float) (specifics : bool).
  Definition object (a : nat) (o : obj) : Prop := nth a heap ONone = o.
  (** A name that is looked at *)
  Definition counts (n : string) : Prop := specifics = true \/ n <> "dbc" /\ n <> "autosar".
  Definition public (n : string) : Prop := String.prefix "_" n = false.
  (** What is looked at for a name: messages by their identifiers, signals by their names *)
  Inductive looked_at (x : list (string * nat)) : string -> string -> Prop :=
  | la_messages : smem x "_frame_id_to_message" = true -> looked_at x "messages" "_frame_id_to_message"
  | la_signals : smem x "_signal_dict" = true -> looked_at x "signals" "_signal_dict"
  | la_public n : public n -> (n <> "messages" \/ smem x "_frame_id_to_message" = false) -> (n <> "signals" \/ smem x "_signal_dict" = false) -> looked_at x n n.
  (** The names that count are the same, in the same order. *)
  Inductive same_names : list (string * nat) -> list (string * nat) -> Prop :=
  | sn_nil : same_names [] []
  | sn_left n v x y : ~ counts n -> same_names x y -> same_names ((n, v) :: x) y
  | sn_right n v x y : ~ counts n -> same_names x y -> same_names x ((n, v) :: y)
  | sn_both n v w x y : counts n -> same_names x y -> same_names ((n, v) :: x) ((n, w) :: y).
  (** One step from a pair of objects to a pair of their parts *)
  Inductive part : nat -> nat -> step -> nat -> nat -> Prop :=
  | part_list a b x y i c d : object a (OList x) -> object b (OList y) -> nth_error x i = Some c -> nth_error y i = Some d -> part a b (SIndex i) c d
  | part_tuple a b x y i c d : object a (OTuple x) -> object b (OTuple y) -> nth_error x i = Some c -> nth_error y i = Some d -> part a b (SIndex i) c d
  | part_dict a b o x y k c d : object a (ODict o x) -> object b (ODict o y) -> dget key_eqb x k = Some c -> dget key_eqb y k = Some d -> part a b (SKey k) c d
  | part_attr a b cls x y n m c d : object a (OInst cls x) -> object b (OInst cls y) -> same_names x y -> In n (map fst x) -> counts n -> looked_at x n m ->
      sget x m = Some c -> sget y m = Some d -> part a b (SAttr m) c d.
  Inductive reach : nat -> nat -> list step -> nat -> nat -> Prop :=
  | reach_here a b : reach a b [] a b
  | reach_part a b s c d p a' b' : part a b s c d -> reach c d p a' b' -> reach a b (s :: p) a' b'.
  (** How floats are compared: relatively to the first if that is above one, else absolutely *)
  Definition above_one (a : float) : Prop := SFltb float_one (SFabs a) = true.
  Definition relative_error (a b : float) : float := SFabs (fsub float_one (fdiv b a)).
  Definition absolute_error (a b : float) : float := SFabs (fsub b a).
  Definition too_much (e : float) : Prop := SFltb tolerance e = true.
  (** The ways in which two objects can differ *)
  Inductive differ : nat -> nat -> list step -> reason -> Prop :=
  | di_type a b x y : object a x -> object b y -> type_of x <> type_of y -> differ a b [] TypeMismatch
  | di_int a b x y : object a (OInt x) -> object b (OInt y) -> x <> y -> differ a b [] ValueMismatch
  | di_bool a b x y : object a (OBool x) -> object b (OBool y) -> x <> y -> differ a b [] ValueMismatch
  | di_str a b x y : object a (OStr x) -> object b (OStr y) -> x <> y -> differ a b [] ValueMismatch
  | di_set a b x y t : object a (OSet x) -> object b (OSet y) -> (In t x /\ ~ In t y \/ In t y /\ ~ In t x) -> differ a b [] ValueMismatch
  | di_rel a b x y : object a (OFloat x) -> object b (OFloat y) -> above_one x -> too_much (relative_error x y) -> differ a b [] FloatRel
  | di_abs a b x y : object a (OFloat x) -> object b (OFloat y) -> ~ above_one x -> too_much (absolute_error x y) -> differ a b [] FloatAbs
  | di_list a b x y : object a (OList x) -> object b (OList y) -> List.length x <> List.length y -> differ a b [] LengthMismatch
  | di_tuple a b x y : object a (OTuple x) -> object b (OTuple y) -> List.length x <> List.length y -> differ a b [] LengthMismatch
  | di_only_a a b o x y k : object a (ODict o x) -> object b (ODict o y) -> In k (map fst x) -> ~ In k (map fst y) -> differ a b [SKey k] OnlyA
  | di_only_b a b o x y k : object a (ODict o x) -> object b (ODict o y) -> In k (map fst y) -> ~ In k (map fst x) -> differ a b [SKey k] OnlyB
  | di_names a b cls x y : object a (OInst cls x) -> object b (OInst cls y) -> ~ same_names x y -> differ a b [] NamesMismatch.
  (** Two objects are similar if no pair of parts that is reached from them differs. *)
  Definition similar (a b : nat) : Prop := forall p c d q r, reach a b p c d -> ~ differ c d q r.
End Spec.

(** ** The two objects themselves *)
Lemma key_eqb_eq a b : key_eqb a b = true <-> a = b.
Proof. destruct a, b; cbn; split; try discriminate; try reflexivity; intros H; [apply Z.eqb_eq in H|injection H as ->; apply Z.eqb_refl|apply String.eqb_eq in H|injection H as ->; apply String.eqb_refl]; now subst. Qed.
Lemma dget_in {V} (l : list (key * V)) k : dmem key_eqb l k = true <-> In k (map fst l).
Proof.
  unfold dmem. induction l as [|[k' v] l IH]; cbn; [split; [discriminate|easy]|]. destruct (key_eqb k' k) eqn:E.
  - apply key_eqb_eq in E. subst. split; [now left|reflexivity].
  - rewrite IH. split; [now right|]. intros [->|H]; [|exact H]. assert (X : key_eqb k k = true) by now apply key_eqb_eq. congruence.
Qed.
Lemma subset_spec a b : subset a b = true <-> forall t, In t a -> In t b.
Proof.
  unfold subset. rewrite forallb_forall. split; intros H t I; specialize (H t I).
  - unfold strmem in H. apply existsb_exists in H. destruct H as (u & U & E). apply String.eqb_eq in E. now subst.
  - unfold strmem. apply existsb_exists. exists t. split; [exact H|apply String.eqb_refl].
Qed.
Lemma not_subset a b : subset a b = false -> exists t, In t a /\ ~ In t b.
Proof.
  unfold subset. induction a as [|x a IH]; cbn [forallb]; [discriminate|]. destruct (strmem x b) eqn:E; cbn [andb].
  - intros H. destruct (IH H) as (t & T & N). exists t. split; [now right|exact N].
  - intros _. exists x. split; [now left|]. intros I. unfold strmem in E. assert (X : existsb (String.eqb x) b = true) by (apply existsb_exists; exists x; split; [exact I|apply String.eqb_refl]). congruence.
Qed.
Lemma in_only x y r q r' : In (q, r') (only x y r) <-> exists k, q = [SKey k] /\ r' = r /\ In k (map fst x) /\ ~ In k (map fst y).
Proof.
  unfold only. rewrite in_map_iff. split.
  - intros ([k v] & E & I). injection E as <- <-. apply filter_In in I. destruct I as [I N]. apply negb_true_iff in N. cbn [fst] in *. exists k. repeat split; [apply in_map_iff; now exists (k, v)|]. intros H. apply dget_in in H. congruence.
  - intros (k & -> & -> & I & N). apply in_map_iff in I. destruct I as ([k' v] & E & I). cbn in E. subst k'. exists (k, v). split; [reflexivity|]. apply filter_In. split; [exact I|]. apply negb_true_iff. cbn [fst]. destruct (dmem key_eqb y k) eqn:M; [apply dget_in in M; contradiction|reflexivity].
Qed.
Lemma counts_iff specifics n : (specifics || negb (String.eqb n "dbc" || String.eqb n "autosar")) = true <-> counts specifics n.
Proof.
  unfold counts. destruct specifics; cbn [orb]; [split; [now left|reflexivity]|]. rewrite negb_true_iff, orb_false_iff, !String.eqb_neq. split; [now right|intros [H|H]; [discriminate|exact H]].
Qed.
Lemma names_cons specifics n v x : names_of specifics ((n, v) :: x) = if specifics || negb (String.eqb n "dbc" || String.eqb n "autosar") then n :: names_of specifics x else names_of specifics x.
Proof. reflexivity. Qed.
Lemma same_iff specifics x y : same_names specifics x y <-> names_of specifics x = names_of specifics y.
Proof.
  split.
  - intros H. induction H as [|n v x y C H IH|n v x y C H IH|n v w x y C H IH]; [reflexivity|..]; rewrite !names_cons; rewrite <- counts_iff in C; destruct (specifics || _); congruence.
  - revert y. induction x as [|[n v] x IH]; intros y.
    + induction y as [|[m w] y IHy]; [constructor|]. rewrite names_cons. destruct (specifics || _) eqn:C; [discriminate|]. intros H. apply sn_right; [|now apply IHy]. rewrite <- counts_iff, C. discriminate.
    + rewrite names_cons. destruct (specifics || negb (String.eqb n "dbc" || _)) eqn:C.
      * intros H. induction y as [|[m w] y IHy]; [discriminate|]. rewrite names_cons in H. destruct (specifics || negb (String.eqb m "dbc" || _)) eqn:D.
        -- injection H as <- H. apply sn_both; [now apply counts_iff|now apply IH].
        -- apply sn_right; [|now apply IHy]. rewrite <- counts_iff, D. discriminate.
      * intros H. apply sn_left; [|now apply IH]. rewrite <- counts_iff, C. discriminate.
Qed.
Section Here.
  Context (heap : list obj) (tolerance : float) (specifics : bool).
  Notation here := (here heap tolerance specifics).
  Notation kids := (kids heap specifics).
  Notation differ := (differ heap tolerance specifics).
  Notation part := (part heap specifics).
  Lemma value_iff (b : bool) (q : list step) r : In (q, r) (if b then [] else [([], ValueMismatch)]) <-> b = false /\ q = [] /\ r = ValueMismatch.
  Proof. destruct b; cbn; split; try easy; [intros [H|[]]; now injection H as <- <-|intros (_ & -> & ->); now left]. Qed.
  Lemma here_iff a b q r : In (q, r) (here a b) <-> differ a b q r.
  Proof.
    unfold Similar.here, Similar.at_.  split.
    - destruct (String.eqb (type_of (nth a heap ONone)) (type_of (nth b heap ONone))) eqn:T; cbn [negb].
      + destruct (nth a heap ONone) eqn:A, (nth b heap ONone) eqn:B; try (intros []); try discriminate T; cbn zeta; rewrite ?value_iff.
        * intros (E & -> & ->). apply Z.eqb_neq in E. econstructor; eassumption.
        * intros (E & -> & ->). apply eqb_false_iff in E. eapply di_bool; eassumption.
        * intros (E & -> & ->). apply String.eqb_neq in E. eapply di_str; eassumption.
        * intros (E & -> & ->). apply andb_false_iff in E. destruct E as [E|E]; apply not_subset in E; destruct E as (t & I & N); (eapply (di_set heap tolerance specifics a b _ _ t); [eassumption..|]); [left|right]; now split.
        * unfold float_mismatch. destruct (SFltb float_one (SFabs f)) eqn:F1.
          -- destruct (SFltb tolerance _) eqn:F2; [|intros []]. intros [[= <- <-]|[]]. eapply di_rel; eassumption.
          -- destruct (SFltb tolerance _) eqn:F2; [|intros []]. intros [[= <- <-]|[]]. eapply di_abs; try eassumption. unfold above_one. rewrite F1. discriminate.
        * destruct (Nat.eqb _ _) eqn:E; [intros []|]. intros [[= <- <-]|[]]. apply Nat.eqb_neq in E. eapply di_list; eassumption.
        * destruct (Nat.eqb _ _) eqn:E; [intros []|]. intros [[= <- <-]|[]]. apply Nat.eqb_neq in E. eapply di_tuple; eassumption.
        * assert (ordered = ordered0) by (cbn in T; destruct ordered, ordered0; congruence || discriminate). subst. rewrite in_app_iff, !in_only. intros [(k & -> & -> & I & N)|(k & -> & -> & I & N)]; [eapply di_only_a|eapply di_only_b]; eassumption.
        * cbn in T. apply String.eqb_eq in T. subst. destruct (list_eq_dec _ _ _) as [E|E]; rewrite <- same_iff in E; [intros []|]. intros [[= <- <-]|[]]. eapply di_names; eassumption.
      + intros [[= <- <-]|[]]. apply String.eqb_neq in T. eapply di_type; try reflexivity. exact T.
    - intros D. inversion D as [a' b' x y A B N|a' b' x y A B N|a' b' x y A B N|a' b' x y A B N|a' b' x y t A B N|a' b' x y A B N M|a' b' x y A B N M|a' b' x y A B N|a' b' x y A B N|a' b' o x y k A B N M|a' b' o x y k A B N M|a' b' cls x y A B N]; subst; unfold object in A, B; rewrite ?A, ?B; cbn [type_of]; rewrite ?String.eqb_refl; cbn [negb]; cbn zeta; rewrite ?value_iff.
      + apply String.eqb_neq in N. rewrite N. now left.
      + apply Z.eqb_neq in N. now rewrite N.
      + split; [now apply eqb_false_iff|now split].
      + apply String.eqb_neq in N. now rewrite N.
      + split; [|now split]. apply andb_false_iff. destruct N as [[I N]|[I N]]; [left|right]; (destruct (subset _ _) eqn:S; [|reflexivity]); rewrite subset_spec in S; destruct (N (S t I)).
      + unfold float_mismatch. unfold above_one in N. rewrite N. unfold too_much, relative_error in M. rewrite M. now left.
      + unfold float_mismatch. unfold above_one in N. destruct (SFltb float_one (SFabs x)); [now destruct N|]. unfold too_much, absolute_error in M. rewrite M. now left.
      + apply Nat.eqb_neq in N. rewrite N. now left.
      + apply Nat.eqb_neq in N. rewrite N. now left.
      + apply in_app_iff. left. apply in_only. now exists k.
      + apply in_app_iff. right. apply in_only. now exists k.
      + destruct (list_eq_dec _ _ _) as [E|E]; rewrite <- same_iff in E; [now destruct N|now left].
  Qed.
  Lemma pairs_iff x y s c d : In (s, c, d) (map (fun p : nat * (nat * nat) => (SIndex (fst p), fst (snd p), snd (snd p))) (combine (seq 0 (List.length x)) (combine x y))) <->
    exists i, s = SIndex i /\ nth_error x i = Some c /\ nth_error y i = Some d.
  Proof.
    assert (G : forall x y n, In (s, c, d) (map (fun p : nat * (nat * nat) => (SIndex (fst p), fst (snd p), snd (snd p))) (combine (seq n (List.length x)) (combine x y))) <-> exists i, s = SIndex (n + i) /\ nth_error x i = Some c /\ nth_error y i = Some d).
    { clear. induction x as [|u x IH]; intros y n; [split; [intros []|intros ([|i] & _ & H & _); discriminate]|]. destruct y as [|v y]; [split; [cbn; intros []|intros ([|i] & _ & _ & H); discriminate]|]. cbn [List.length seq combine map In]. rewrite IH. cbn [fst snd]. split.
      - intros [[= <- <- <-]|(i & -> & A & B)]; [exists 0; now rewrite Nat.add_0_r|]. exists (S i). split; [f_equal; lia|now split].
      - intros ([|i] & -> & A & B); [left; rewrite Nat.add_0_r; cbn in A, B; congruence|right]. exists i. split; [f_equal; lia|now split]. }
    apply G.
  Qed.
  Lemma names_iff x n : In n (names_of specifics x) <-> In n (map fst x) /\ counts specifics n.
  Proof.
    unfold names_of. rewrite filter_In. unfold counts. rewrite orb_true_iff, negb_true_iff, orb_false_iff, !String.eqb_neq. tauto.
  Qed.
  Lemma attribute_iff x y n s c d : In (s, c, d) (attribute x y n) <-> exists m, looked_at x n m /\ s = SAttr m /\ sget x m = Some c /\ sget y m = Some d.
  Proof.
    assert (G : forall m, In (s, c, d) match sget x m, sget y m with Some c, Some d => [(SAttr m, c, d)] | _, _ => [] end <-> s = SAttr m /\ sget x m = Some c /\ sget y m = Some d).
    { intros m. destruct (sget x m), (sget y m); cbn; split; try easy; [intros [[= <- <- <-]|[]]; now repeat split|intros (-> & [= ->] & [= ->]); now left]. }
    unfold attribute. cbn zeta. unfold has. destruct (String.eqb n "messages") eqn:M.
    - apply String.eqb_eq in M. subst n. cbn [andb]. destruct (smem x "_frame_id_to_message") eqn:H.
      + rewrite G. split; [intros X; exists "_frame_id_to_message"; split; [now constructor|exact X]|]. intros (m & L & X). inversion L; subst; [exact X|]. destruct H1; congruence.
      + change (String.eqb "messages" "signals") with false. cbn [andb]. change (String.prefix "_" "messages") with false. cbv iota. rewrite G. split; [intros X; exists "messages"; split; [|exact X]; apply la_public; [reflexivity|now right|left; discriminate]|]. intros (m & L & X). inversion L; subst; [congruence|exact X].
    - apply String.eqb_neq in M. cbn [andb]. destruct (String.eqb n "signals") eqn:S.
      + apply String.eqb_eq in S. subst n. cbn [andb]. destruct (smem x "_signal_dict") eqn:H.
        * rewrite G. split; [intros X; exists "_signal_dict"; split; [now constructor|exact X]|]. intros (m & L & X). inversion L; subst; [exact X|]. destruct H2; congruence.
        * change (String.prefix "_" "signals") with false. cbv iota. rewrite G. split; [intros X; exists "signals"; split; [|exact X]; apply la_public; [reflexivity|now left|now right]|]. intros (m & L & X). inversion L; subst; [congruence|exact X].
      + apply String.eqb_neq in S. cbn [andb]. destruct (String.prefix "_" n) eqn:P.
        * split; [intros []|]. intros (m & L & X). inversion L; subst; try contradiction. unfold public in *. congruence.
        * rewrite G. split; [intros X; exists n; split; [|exact X]; apply la_public; [exact P|now left|now left]|]. intros (m & L & X). inversion L; subst; try contradiction. exact X.
  Qed.
  Lemma kids_iff a b s c d : In (s, c, d) (kids a b) <-> part a b s c d.
  Proof.
    unfold Similar.kids, Similar.at_. split.
    - destruct (String.eqb (type_of (nth a heap ONone)) (type_of (nth b heap ONone))) eqn:T; cbn [negb]; [|intros []].
      destruct (nth a heap ONone) eqn:A, (nth b heap ONone) eqn:B; try (intros []); try discriminate T.
      + rewrite pairs_iff. intros (i & -> & X & Y). eapply part_list; eassumption.
      + rewrite pairs_iff. intros (i & -> & X & Y). eapply part_tuple; eassumption.
      + assert (ordered = ordered0) by (cbn in T; destruct ordered, ordered0; congruence || discriminate). subst. rewrite in_flat_map. intros ([k v] & I & H). cbn [fst] in H. destruct (dget key_eqb l k) eqn:X; [|destruct H]. destruct (dget key_eqb l0 k) eqn:Y; [|destruct H]. destruct H as [[= <- <- <-]|[]]. eapply part_dict; eassumption.
      + cbn in T. apply String.eqb_eq in T. subst. destruct (list_eq_dec _ _ _) as [E|E]; rewrite <- same_iff in E; [|intros []]. rewrite in_flat_map. intros (n & I & H). apply names_iff in I. apply attribute_iff in H. destruct H as (m & L & -> & X & Y). destruct I. eapply part_attr; eassumption.
    - intros P. inversion P as [a' b' x y i c' d' A B X Y|a' b' x y i c' d' A B X Y|a' b' o x y k c' d' A B X Y|a' b' cls x y n m c' d' A B SN I C L X Y]; subst; unfold object in A, B; rewrite A, B; cbn [type_of]; rewrite String.eqb_refl; cbn [negb].
      + apply pairs_iff. now exists i.
      + apply pairs_iff. now exists i.
      + apply in_flat_map. assert (I : In k (map fst x)) by (apply dget_in; unfold dmem; now rewrite X). apply in_map_iff in I. destruct I as ([k' v] & E & I). cbn in E. subst k'. exists (k, v). split; [exact I|]. cbn [fst]. rewrite X, Y. now left.
      + destruct (list_eq_dec _ _ _) as [E|E]; rewrite <- same_iff in E; [|contradiction]. apply in_flat_map. exists n. split; [now apply names_iff|]. apply attribute_iff. now exists m.
  Qed.
End Here.

(** ** The traversal *)
Lemma memb_iff p l : memb p l = true <-> In p l.
Proof.
  unfold memb. rewrite existsb_exists. split.
  - intros ([u v] & I & E). apply andb_true_iff in E. destruct E as [A B]. apply Nat.eqb_eq in A, B. destruct p. cbn in *. now subst.
  - intros I. exists p. split; [exact I|]. now rewrite !Nat.eqb_refl.
Qed.
Definition pair_dec (p q : nat * nat) : {p = q} + {p <> q}.
Proof. decide equality; apply Nat.eq_dec. Defined.
Section Walk.
  Context (heap : list obj) (ident : nat -> nat) (tolerance : float) (specifics : bool) (INJ : forall x y, ident x = ident y -> x = y).
  Notation here := (here heap tolerance specifics).
  Notation kids := (kids heap specifics).
  Notation differ := (differ heap tolerance specifics).
  Notation part := (part heap specifics).
  Notation reach := (reach heap specifics).
  Notation compare := (compare heap ident tolerance specifics).
  Definition seen_pair (seen : list (nat * nat)) (x y : nat) : Prop := In (ident x, ident y) seen.
  (** The loop over the parts, as a function of what is done with each *)
  Definition walk (cmp : list (nat * nat) -> list step -> nat -> nat -> option (list (nat * nat) * list diff)) (path : list step) :=
    fix go (seen : list (nat * nat)) (l : list (step * nat * nat)) : option (list (nat * nat) * list diff) :=
      match l with
      | [] => Some (seen, [])
      | (s, x, y) :: r => match cmp seen (path ++ [s]) x y with None => None | Some (seen1, d1) => match go seen1 r with None => None | Some (seen2, d2) => Some (seen2, d1 ++ d2) end end
      end.
  Lemma compare_eq f seen path a b : compare (S f) seen path a b =
    if memb (ident a, ident b) seen then Some (seen, [])
    else match walk (compare f) path ((ident a, ident b) :: seen) (kids a b) with None => None | Some (seen', d) => Some (seen', map (fun e => (path ++ fst e, snd e)) (here a b) ++ d) end.
  Proof. reflexivity. Qed.
  (** What is known after a pair was compared: new pairs were reached, are reported and have their parts seen *)
  Definition told (d : list diff) (pre : list step) (x y : nat) : Prop := forall q r, In (q, r) (here x y) -> In (pre ++ q, r) d.
  Definition closed_in (seen : list (nat * nat)) (x y : nat) : Prop := forall s c e, In (s, c, e) (kids x y) -> seen_pair seen c e.
  Definition result_ok (start : list step -> nat -> nat -> Prop) (path : list step) (seen seen' : list (nat * nat)) (d : list diff) : Prop :=
    incl seen seen' /\
    (forall x y, seen_pair seen' x y -> ~ seen_pair seen x y -> exists p, start p x y /\ told d (path ++ p) x y /\ closed_in seen' x y) /\
    (forall dp r, In (dp, r) d -> exists p q x y, start p x y /\ In (q, r) (here x y) /\ dp = path ++ p ++ q).
  Lemma walk_ok cmp path l : (forall seen pa x y seen' d, cmp seen pa x y = Some (seen', d) -> result_ok (reach x y) pa seen seen' d /\ seen_pair seen' x y) ->
    forall seen seen' d, walk cmp path seen l = Some (seen', d) ->
    result_ok (fun p x y => exists s c e p', p = s :: p' /\ In (s, c, e) l /\ reach c e p' x y) path seen seen' d /\ (forall s c e, In (s, c, e) l -> seen_pair seen' c e).
  Proof.
    intros C. induction l as [|[[s x] y] l IH]; intros seen seen' d H.
    - injection H as <- <-. split; [|intros ? ? ? []]. split; [apply incl_refl|]. split; [contradiction|intros ? ? []].
    - cbn [walk] in H. destruct (cmp seen (path ++ [s]) x y) as [[seen1 d1]|] eqn:E; [|discriminate]. change (match walk cmp path seen1 l with None => None | Some (seen2, d2) => Some (seen2, d1 ++ d2) end = Some (seen', d)) in H. destruct (walk cmp path seen1 l) as [[seen2 d2]|] eqn:W; [|discriminate]. injection H as <- <-.
      destruct (C _ _ _ _ _ _ E) as [(I1 & N1 & D1) S1]. destruct (IH _ _ _ W) as [(I2 & N2 & D2) S2]. split; [split; [now apply (incl_tran I1)|split]|].
      + intros u v U NU. destruct (in_dec pair_dec (ident u, ident v) seen1) as [K|K].
        * destruct (N1 u v K NU) as (p & R & T & CL). exists (s :: p). split; [exists s, x, y, p; repeat split; [now left|exact R]|]. split; [|intros s' c e KI; apply I2, (CL s' c e KI)]. intros q r Q. apply in_app_iff. left. specialize (T q r Q). rewrite <- !app_assoc in *. exact T.
        * destruct (N2 u v U K) as (p & (s' & c & e & p' & -> & IN & R) & T & CL). exists (s' :: p'). split; [exists s', c, e, p'; repeat split; [now right|exact R]|]. split; [|exact CL]. intros q r Q. apply in_app_iff. right. now apply T.
      + intros dp r Q. apply in_app_iff in Q. destruct Q as [Q|Q].
        * destruct (D1 dp r Q) as (p & q & u & v & R & HQ & ->). exists (s :: p), q, u, v. split; [exists s, x, y, p; repeat split; [now left|exact R]|]. split; [exact HQ|]. now rewrite <- !app_assoc.
        * destruct (D2 dp r Q) as (p & q & u & v & (s' & c & e & p' & -> & IN & R) & HQ & ->). exists (s' :: p'), q, u, v. split; [exists s', c, e, p'; repeat split; [now right|exact R]|]. now split.
      + intros s' c e [[= <- <- <-]|K]; [now apply I2|now apply (S2 s')].
  Qed.
  Lemma compare_ok f : forall seen path a b seen' d, compare f seen path a b = Some (seen', d) -> result_ok (reach a b) path seen seen' d /\ seen_pair seen' a b.
  Proof.
    induction f as [|f IH]; intros seen path a b seen' d H; [discriminate|]. rewrite compare_eq in H. destruct (memb (ident a, ident b) seen) eqn:M.
    - injection H as <- <-. apply memb_iff in M. split; [|exact M]. split; [apply incl_refl|]. split; [contradiction|intros ? ? []].
    - destruct (walk (compare f) path ((ident a, ident b) :: seen) (kids a b)) as [[seen1 d1]|] eqn:W; [|discriminate]. injection H as <- <-.
      destruct (walk_ok _ path (kids a b) IH _ _ _ W) as [(I1 & N1 & D1) S1]. split; [split; [intros p P; apply I1; now right|split]|apply I1; now left].
      + intros x y S NS. destruct (in_dec pair_dec (ident x, ident y) ((ident a, ident b) :: seen)) as [K|K].
        * destruct K as [K|K]; [|contradiction]. injection K as K1 K2. apply INJ in K1, K2. subst x y. exists []. split; [constructor|]. split; [|exact S1]. intros q r Q. apply in_app_iff. left. apply in_map_iff. exists (q, r). split; [|exact Q]. cbn [fst snd]. now rewrite app_nil_r.
        * destruct (N1 x y S K) as (p & (s & c & e & p' & -> & IN & R) & T & CL). exists (s :: p'). split; [apply (reach_part _ _ _ _ _ c e); [now apply kids_iff|exact R]|]. split; [|exact CL]. intros q r Q. apply in_app_iff. right. now apply T.
      + intros dp r Q. apply in_app_iff in Q. destruct Q as [Q|Q].
        * apply in_map_iff in Q. destruct Q as ([q r'] & E & Q). injection E as <- <-. exists [], q, a, b. split; [constructor|]. split; [exact Q|reflexivity].
        * destruct (D1 dp r Q) as (p & q & u & v & (s & c & e & p' & -> & IN & R) & HQ & ->). exists (s :: p'), q, u, v. split; [apply (reach_part _ _ _ _ _ c e); [now apply kids_iff|exact R]|]. now split.
  Qed.
  Lemma all_seen seen a b p x y : (forall x y, seen_pair seen x y -> closed_in seen x y) -> reach a b p x y -> seen_pair seen a b -> seen_pair seen x y.
  Proof. intros C R. induction R as [a b|a b s c e p x y P R IH]; intros S; [exact S|]. apply IH. apply (C a b S s). now apply kids_iff. Qed.

  (** *** What is reported *)
  (** Each difference that is reported is one of two parts that the path leads to. *)
  Theorem C85_reported fuel a b d dp r : differences heap ident tolerance specifics fuel a b = Some d -> In (dp, r) d ->
    exists p q x y, reach a b p x y /\ differ x y q r /\ dp = p ++ q.
  Proof.
    unfold differences. intros H I. destruct (compare fuel [] [] a b) as [[seen d']|] eqn:C; [|discriminate]. injection H as <-. destruct (compare_ok _ _ _ _ _ _ _ C) as [(_ & _ & D) _]. destruct (D dp r I) as (p & q & x & y & R & Q & ->). exists p, q, x, y. split; [exact R|]. split; [now apply here_iff|reflexivity].
  Qed.
  (** Two parts that are reached and differ are reported, at one of the paths that lead to them. *)
  Theorem C85_found fuel a b d p x y q r : differences heap ident tolerance specifics fuel a b = Some d -> reach a b p x y -> differ x y q r ->
    exists p', reach a b p' x y /\ In (p' ++ q, r) d.
  Proof.
    unfold differences. intros H R DI. destruct (compare fuel [] [] a b) as [[seen d']|] eqn:C; [|discriminate]. injection H as <-. destruct (compare_ok _ _ _ _ _ _ _ C) as [(_ & N & _) S].
    assert (CL : forall x y, seen_pair seen x y -> closed_in seen x y) by (intros u v K; destruct (N u v K) as (_ & _ & _ & X); [intros []|exact X]).
    destruct (N x y) as (p' & R' & T & _); [now apply (all_seen seen a b p)|intros []|]. exists p'. split; [exact R'|]. apply T. now apply here_iff.
  Qed.
  Theorem C85_similar fuel a b s : is_similar heap ident tolerance specifics fuel a b = Some s -> (s = true <-> similar heap tolerance specifics a b).
  Proof.
    unfold is_similar. intros H. destruct (differences heap ident tolerance specifics fuel a b) as [d|] eqn:D; [|discriminate]. injection H as <-. split.
    - intros E p x y q r R DI. destruct d; [|discriminate]. destruct (C85_found _ _ _ _ _ _ _ _ _ D R DI) as (p' & _ & []).
    - intros SI. destruct d as [|[dp r] d]; [reflexivity|]. destruct (C85_reported _ _ _ _ _ _ D (or_introl eq_refl)) as (p & q & x & y & R & DI & _). destruct (SI p x y q r R DI).
  Qed.

  (** *** The comparison ends *)
  Definition children (o : obj) : list nat := match o with OList l | OTuple l => l | ODict _ l => map snd l | OInst _ l => map snd l | _ => [] end.
  Definition closed : Prop := forall o c, In o heap -> In c (children o) -> c < List.length heap.
  Lemma dget_snd {K} (eqb : K -> K -> bool) (l : list (K * nat)) k c : dget eqb l k = Some c -> In c (map snd l).
  Proof. induction l as [|[k' v] l IH]; cbn; [discriminate|]. destruct (eqb k' k); [intros [= ->]; now left|right; auto]. Qed.
  Lemma object_in a o : object heap a o -> o <> ONone -> In o heap.
  Proof. unfold object. intros H N. destruct (nth_in_or_default a heap ONone) as [I|E]; [now rewrite H in I|congruence]. Qed.
  Lemma part_small a b s c e : closed -> part a b s c e -> c < List.length heap /\ e < List.length heap.
  Proof.
    intros CL P. inversion P as [a' b' x y i c' d' A B X Y|a' b' x y i c' d' A B X Y|a' b' o x y k c' d' A B X Y|a' b' cls x y n m c' d' A B SN I C L X Y]; subst; apply object_in in A; try discriminate; apply object_in in B; try discriminate; split.
    all: first [apply (CL _ _ A); cbn [children]; first [apply (nth_error_In _ _ X)|apply (dget_snd _ _ _ _ X)]|apply (CL _ _ B); cbn [children]; first [apply (nth_error_In _ _ Y)|apply (dget_snd _ _ _ _ Y)]].
  Qed.
  Definition pairs : list (nat * nat) := list_prod (map ident (seq 0 (List.length heap))) (map ident (seq 0 (List.length heap))).
  Definition left_over (seen : list (nat * nat)) : nat := List.length (filter (fun p => negb (memb p seen)) pairs).
  Lemma left_less seen seen' : incl seen seen' -> left_over seen' <= left_over seen.
  Proof.
    intros I. unfold left_over. induction pairs as [|p l IH]; cbn [filter]; [lia|]. destruct (memb p seen) eqn:M; cbn [negb].
    - apply memb_iff in M. apply I in M. apply memb_iff in M. rewrite M. exact IH.
    - destruct (memb p seen'); cbn [negb List.length]; lia.
  Qed.
  Lemma left_new seen p : In p pairs -> memb p seen = false -> left_over (p :: seen) < left_over seen.
  Proof.
    unfold left_over. induction pairs as [|q l IH]; intros I M; [destruct I|]. cbn [filter]. assert (LE : List.length (filter (fun p0 => negb (memb p0 (p :: seen))) l) <= List.length (filter (fun p0 => negb (memb p0 seen)) l)).
    { clear. induction l as [|x l IH]; cbn [filter]; [lia|]. change (memb x (p :: seen)) with ((Nat.eqb (fst x) (fst p) && Nat.eqb (snd x) (snd p)) || memb x seen). destruct (memb x seen); [rewrite orb_true_r; exact IH|rewrite orb_false_r]. destruct (_ && _); cbn [negb List.length]; lia. }
    destruct I as [->|I].
    - rewrite M. cbn [negb List.length]. assert (E : memb p (p :: seen) = true) by (apply memb_iff; now left). rewrite E. cbn [negb]. lia.
    - specialize (IH I M). change (memb q (p :: seen)) with ((Nat.eqb (fst q) (fst p) && Nat.eqb (snd q) (snd p)) || memb q seen). destruct (memb q seen); [rewrite orb_true_r; exact IH|rewrite orb_false_r]. destruct (_ && _); cbn [negb List.length]; lia.
  Qed.
  Lemma compare_ends f : closed -> forall seen path a b, left_over seen < f -> a < List.length heap -> b < List.length heap -> compare f seen path a b <> None.
  Proof.
    intros CL. induction f as [|f IH]; intros seen path a b L A B; [lia|]. rewrite compare_eq. destruct (memb (ident a, ident b) seen) eqn:M; [discriminate|].
    assert (LN : left_over ((ident a, ident b) :: seen) < f).
    { assert (I : In (ident a, ident b) pairs) by (apply in_prod; apply in_map, in_seq; lia). pose proof (left_new seen _ I M). lia. }
    assert (W : forall l sn, left_over sn < f -> (forall s c e, In (s, c, e) l -> c < List.length heap /\ e < List.length heap) -> walk (compare f) path sn l <> None).
    { induction l as [|[[s x] y] l IHl]; intros sn LS SM; [discriminate|]. cbn [walk]. destruct (SM s x y (or_introl eq_refl)) as [SX SY]. destruct (compare f sn (path ++ [s]) x y) as [[seen1 d1]|] eqn:E; [|now destruct (IH sn (path ++ [s]) x y LS SX SY)].
      destruct (compare_ok _ _ _ _ _ _ _ E) as [(I1 & _) _]. change (match walk (compare f) path seen1 l with None => None | Some (seen2, d2) => Some (seen2, d1 ++ d2) end <> None).
      assert (X : walk (compare f) path seen1 l <> None) by (apply IHl; [pose proof (left_less _ _ I1); lia|intros s' c e K; apply (SM s'); now right]). destruct (walk (compare f) path seen1 l) as [[]|]; [discriminate|contradiction]. }
    specialize (W (kids a b) _ LN). destruct (walk (compare f) path ((ident a, ident b) :: seen) (kids a b)) as [[]|]; [discriminate|]. destruct W; [|reflexivity]. intros s c e K. apply (part_small a b s); [exact CL|now apply kids_iff].
  Qed.
  (** Shared and cyclic objects are compared at most once, so the comparison of any two of them ends. *)
  Theorem C85_ends a b fuel : closed -> a < List.length heap -> b < List.length heap -> List.length heap * List.length heap < fuel ->
    is_similar heap ident tolerance specifics fuel a b <> None.
  Proof.
    intros CL A B F. unfold is_similar, differences. assert (X : compare fuel [] [] a b <> None).
    { apply compare_ends; try assumption. unfold left_over. assert (E : List.length (filter (fun p => negb (memb p [])) pairs) <= List.length pairs) by (clear; induction pairs as [|p l IH]; [reflexivity|]; cbn [filter]; destruct (negb (memb p [])); cbn [List.length]; lia). unfold pairs in *. rewrite prod_length, !map_length, seq_length in E. lia. }
    destruct (compare fuel [] [] a b) as [[]|]; [discriminate|contradiction].
  Qed.
End Walk.

(** ** Every object is similar to itself *)
Lemma zero_of f : finite64 f -> fval f = 0%R -> exists s, f = S754_zero s.
Proof.
  intros [_ F] V. destruct f as [s| | |s m e]; try discriminate; [now exists s|]. exfalso. unfold fval in V. cbn [IEEE754.BinarySingleNaN.SF2R] in V. apply eq_0_F2R in V. cbn in V. destruct s; discriminate.
Qed.
Lemma one_finite : finite64 float_one /\ fval float_one = 1%R.
Proof.
  split; [split; vm_compute; reflexivity|]. change (fval (S754_finite false 4503599627370496 (-52)) = 1%R). unfold fval. cbn [IEEE754.BinarySingleNaN.SF2R cond_Zopp]. unfold F2R. cbn [Fnum Fexp]. change (bpow radix2 (-52)) with (/ IZR (2 ^ 52))%R. change (2 ^ 52)%Z with 4503599627370496%Z. field.
Qed.
Lemma rnd_0 : rnd 0 = 0%R. Proof. apply (rnd_int 0). lia. Qed.
Lemma rnd_1 : rnd 1 = 1%R. Proof. apply (rnd_int 1). lia. Qed.
Lemma small_big x : (Rabs x <= 1)%R -> (Rabs (rnd x) < big)%R.
Proof. intros H. apply rnd_bounded. apply Rle_trans with 1%R; [exact H|]. change 1%R with (bpow radix2 0). apply bpow_le. lia. Qed.
Lemma sub_self f g : finite64 f -> finite64 g -> fval f = fval g -> exists s, fsub f g = S754_zero s.
Proof.
  intros F G E. assert (Z0 : (fval f - fval g = 0)%R) by (rewrite E; ring). destruct (fsub_real f g F G) as [A B].
  - rewrite Z0. apply small_big. rewrite Rabs_R0. lra.
  - apply zero_of; [exact A|]. rewrite B, Z0. apply rnd_0.
Qed.
Definition not_negative (tolerance : float) : Prop := SFltb tolerance (S754_zero false) = false.
Lemma float_self tol f : not_negative tol -> valid_binary 53 1024 f = true ->
  (above_one f -> ~ too_much tol (relative_error f f)) /\ (~ above_one f -> ~ too_much tol (absolute_error f f)).
Proof.
  intros T V. unfold too_much. assert (NAN : SFltb tol S754_nan = false) by (destruct tol; reflexivity).
  assert (ZERO : forall s, SFltb tol (SFabs (S754_zero s)) = false) by (intros s; exact T).
  destruct f as [s|s| |s m e].
  - split; [intros A; discriminate A|]. intros _. unfold absolute_error. destruct s; cbn; now rewrite T.
  - split; [|intros A; destruct s; now destruct A]. intros _. unfold relative_error. change (fdiv (S754_infinity s) (S754_infinity s)) with S754_nan. change (fsub float_one S754_nan) with S754_nan. cbn [SFabs]. rewrite NAN. discriminate.
  - split; [intros A; discriminate A|]. intros _. unfold absolute_error. change (fsub S754_nan S754_nan) with S754_nan. cbn [SFabs]. rewrite NAN. discriminate.
  - set (f := S754_finite s m e) in *. assert (F : finite64 f) by (split; [exact V|reflexivity]). destruct one_finite as [O1 O2]. split; intros _.
    + assert (NZ : fval f <> 0%R) by (intros E; destruct (zero_of f F E) as [s' X]; discriminate X). destruct (fdiv_real f f F F NZ) as [A B].
      * unfold Rdiv. rewrite Rinv_r by exact NZ. apply small_big. rewrite Rabs_R1. lra.
      * unfold Rdiv in B. rewrite Rinv_r, rnd_1 in B by exact NZ. unfold relative_error. destruct (sub_self float_one (fdiv f f) O1 A) as [s' ->]; [now rewrite O2, B|]. rewrite ZERO. discriminate.
    + unfold absolute_error. destruct (sub_self f f F F eq_refl) as [s' ->]. rewrite ZERO. discriminate.
Qed.
Lemma reach_self heap specifics a p x y : reach heap specifics a a p x y -> x = y.
Proof.
  assert (G : forall b, reach heap specifics a b p x y -> a = b -> x = y); [|intros R; now apply (G a)].
  intros b R. induction R as [a b|a b s c d p x y P R IH]; intros E; [exact E|]. subst b. apply IH. unfold object in *.
  inversion P as [a' b' x' y' i c' d' A B X Y|a' b' x' y' i c' d' A B X Y|a' b' o x' y' k c' d' A B X Y|a' b' cls x' y' n m c' d' A B SN I C L X Y]; subst; unfold object in *; rewrite A in B; injection B as <-; congruence.
Qed.
Theorem C85_reflexive heap tolerance specifics a : not_negative tolerance -> (forall f, In (OFloat f) heap -> valid_binary 53 1024 f = true) -> similar heap tolerance specifics a a.
Proof.
  intros T V p x y q r R D. apply reach_self in R. subst y.
  inversion D as [a' b' x' y A B N|a' b' x' y A B N|a' b' x' y A B N|a' b' x' y A B N|a' b' x' y t A B N|a' b' x' y A B N M|a' b' x' y A B N M|a' b' x' y A B N|a' b' x' y A B N|a' b' o x' y k A B N M|a' b' o x' y k A B N M|a' b' cls x' y A B N]; subst;
    pose proof A as A'; unfold object in A, B; rewrite A in B; try (injection B as <-); try congruence; try tauto; try (apply object_in in A'; [|discriminate]; apply V in A'; destruct (float_self tolerance x' T A'); tauto).
  apply N. now apply same_iff.
Qed.

(** ** Deviations *)
(** NaN is similar to every float. *)
Theorem C85_nan_refuted heap ident tolerance specifics a b f : object heap a (OFloat S754_nan) -> object heap b (OFloat f) ->
  is_similar heap ident tolerance specifics 1 a b = Some true /\ is_similar heap ident tolerance specifics 1 b a = Some true.
Proof.
  intros A B. assert (NAN : SFltb tolerance S754_nan = false) by (destruct tolerance; reflexivity). unfold object in A, B.
  assert (F1 : fsub f S754_nan = S754_nan) by (destruct f; reflexivity). assert (F2 : fdiv S754_nan f = S754_nan) by (destruct f; reflexivity).
  split; unfold is_similar, differences; cbn [compare memb existsb]; unfold kids, here, at_; rewrite A, B; cbn [type_of String.eqb negb Ascii.eqb Bool.eqb]; unfold float_mismatch; cbn zeta.
  - change (SFltb float_one (SFabs S754_nan)) with false. rewrite F1. cbn [SFabs]. rewrite NAN. reflexivity.
  - rewrite F2. change (fsub float_one S754_nan) with S754_nan. change (fsub S754_nan f) with S754_nan. cbn [SFabs]. rewrite NAN. destruct (SFltb float_one _); reflexivity.
Qed.
(** The order of the two databases may matter. *)
Definition f1_5 : float := S754_finite false 6755399441055744 (-52).
Definition f0_375 : float := S754_finite false 6755399441055744 (-54).
Theorem C85_symmetric_refuted : exists heap tolerance, not_negative tolerance /\
  is_similar heap (fun x => x) tolerance true 9 0 1 = Some false /\ is_similar heap (fun x => x) tolerance true 9 1 0 = Some true.
Proof. exists [OFloat float_one; OFloat f1_5], f0_375. repeat split; vm_compute; reflexivity. Qed.
(** If two objects have the same id(), as objects that do not exist at the same time may have (Message.receivers is a new set whenever
    it is asked for), differences can be missed. *)
Theorem C85_reuse_refuted : exists heap ident, is_similar heap ident f0_375 true 9 0 1 = Some true /\ ~ similar heap f0_375 true 0 1.
Proof.
  exists [OTuple [2; 3]; OTuple [4; 5]; OSet []; OSet ["A"]; OSet []; OSet ["B"]], (fun x => if Nat.eqb x 3 then 2 else if Nat.eqb x 5 then 4 else x). split; [vm_compute; reflexivity|].
  intros S. apply (S [SIndex 1] 3 5 [] ValueMismatch).
  - eapply reach_part; [eapply part_tuple; reflexivity|constructor].
  - eapply (di_set _ _ _ _ _ _ _ "A"); [reflexivity|reflexivity|]. left. split; [now left|]. intros [E|[]]. discriminate.
Qed.

(** Hypotheses: two databases with their messages in another order, which refer to their database, and one that differs in a float *)
Definition demo_heap : list obj := [
  OInst "Database" [("_frame_id_to_message", 3); ("dbc", 6); ("messages", 4)];
  OInst "Database" [("_frame_id_to_message", 9); ("dbc", 7); ("messages", 10)];
  OInst "Database" [("_frame_id_to_message", 15); ("dbc", 7); ("messages", 16)];
  ODict false [(KInt 1, 12); (KInt 2, 13)]; OList [12; 13]; OFloat f1_5; ONone; OInt 3;
  OFloat float_one; ODict false [(KInt 2, 14); (KInt 1, 11)]; OList [14; 11];
  OInst "Message" [("_x", 7); ("parent", 1); ("scale", 8)]; OInst "Message" [("_x", 6); ("parent", 0); ("scale", 8)];
  OInst "Message" [("_x", 6); ("parent", 0); ("scale", 5)]; OInst "Message" [("_x", 6); ("parent", 1); ("scale", 5)];
  ODict false [(KInt 1, 17); (KInt 3, 17)]; OList [17]; OInst "Message" [("_x", 6); ("parent", 2); ("scale", 7)]].
Example C85_hypotheses :
  closed demo_heap /\
  is_similar demo_heap (fun x => x) f0_375 false 400 0 1 = Some true /\ is_similar demo_heap (fun x => x) f0_375 true 400 0 1 = Some false /\
  differences demo_heap (fun x => x) f0_375 false 400 0 2 =
    Some [([SAttr "_frame_id_to_message"; SKey (KInt 2)], OnlyA); ([SAttr "_frame_id_to_message"; SKey (KInt 3)], OnlyB); ([SAttr "_frame_id_to_message"; SKey (KInt 1); SAttr "scale"], TypeMismatch)] /\
  not_negative f0_375 /\ (forall f, In (OFloat f) demo_heap -> valid_binary 53 1024 f = true).
Proof.
  split; [|split; [vm_compute; reflexivity|split; [vm_compute; reflexivity|split; [vm_compute; reflexivity|split; [vm_compute; reflexivity|]]]]].
  - intros o c I J. unfold demo_heap in I. cbn [In] in I. repeat (destruct I as [<-|I]; [cbn in J; repeat (destruct J as [<-|J]; [cbn; lia|]); destruct J|]). destruct I.
  - intros f I. unfold demo_heap in I. cbn [In] in I. repeat (destruct I as [I|I]; [try discriminate I; injection I as <-; vm_compute; reflexivity|]). destruct I.
Qed.
