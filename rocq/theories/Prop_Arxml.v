(** Prop_Arxml: property C69, what the references of an ARXML document resolve to and which documents are accepted. *)
From Coq Require Import Ascii Floats.SpecFloat.
From Verif Require Import Base PyNum DictLemmas CSource CNames Regex DbcToken DbcTables Logreader DecodeCmd Xml Arxml.
Local Open Scope string_scope.
Local Open Scope Z_scope.
Local Open Scope list_scope.

(** ** What a document says, told by positions in the tree *)
(** [c] is [v] without the white space at both ends *)
Definition trimmed (v c : chars) : Prop :=
  exists l r, v = l ++ c ++ r /\ Forall (fun a => is_space a = true) l /\ Forall (fun a => is_space a = true) r /\
    (forall a m, c = a :: m -> is_space a = false) /\ (forall a m, c = m ++ [a] -> is_space a = false).

Section Spec.
  Context (ns : chars).
  Definition is_tag (t : chars) (e : xml) : Prop := x_tag e = "{"%char :: ns ++ "}"%char :: t.
  (** The element that one reaches by going to these children one after the other *)
  Fixpoint elem_at (e : xml) (pos : list nat) : option xml :=
    match pos with [] => Some e | i :: r => match nth_error (x_kids e) i with Some k => elem_at k r | None => None end end.
  (** The first child of a tag *)
  Definition first_of (t : string) (e : xml) : option xml :=
    List.find (fun k => chars_eqb (x_tag k) ("{"%char :: ns ++ "}"%char :: txt t)) (x_kids e).
  (** What an element adds to paths: /NAME; a SHORT-NAME without text counts as None *)
  Definition named_part (o : option xml) : chars :=
    "/"%char :: match o with Some k => match x_text k with [] => txt "None" | t => t end | None => txt "None" end.
  Definition own_path (e : xml) : chars := match first_of "SHORT-NAME" e with Some k => named_part (Some k) | None => [] end.
  Definition own_package (e : xml) : chars :=
    if chars_eqb (x_tag e) ("{"%char :: ns ++ "}"%char :: txt "AR-PACKAGE") then named_part (first_of "SHORT-NAME" e) else [].
  Definition along (f : xml -> chars) : xml -> list nat -> chars :=
    fix go (e : xml) (pos : list nat) {struct pos} : chars :=
      f e ++ match pos with [] => [] | i :: r => match nth_error (x_kids e) i with Some k => go k r | None => [] end end.
  Definition path_at : xml -> list nat -> chars := along own_path.
  Definition package_at : xml -> list nat -> chars := along own_package.
  Definition named_at (root : xml) (pos : list nat) (e : xml) : Prop := elem_at root pos = Some e /\ first_of "SHORT-NAME" e <> None.
  Definition base_at (root : xml) (pos : list nat) (e : xml) : Prop := elem_at root pos = Some e /\ is_tag (txt "REFERENCE-BASE") e.

  (** The first child of a tag has a text, which is [w] but for white space *)
  Definition says (e : xml) (t : string) (w : chars) : Prop := exists k, first_of t e = Some k /\ x_text k <> [] /\ trimmed (x_text k) w.
  Definition says_true (e : xml) (t : string) : Prop := exists w, says e t w /\ map to_lower w = txt "true".
  Definition readable (e : xml) (t : string) : Prop := first_of t e = None \/ exists w, says e t w.
  Definition good_base (e : xml) : Prop :=
    (exists l, says e "SHORT-LABEL" l) /\ (exists p, says e "PACKAGE-REF" p) /\
    readable e "IS-DEFAULT" /\ readable e "IS-GLOBAL" /\ ~ says_true e "IS-GLOBAL".
  Definition acceptable (root : xml) : Prop :=
    (forall p q e f, named_at root p e -> named_at root q f -> path_at root p = path_at root q -> p = q) /\
    (forall p e, base_at root p e -> good_base e) /\
    (forall p q e f l, base_at root p e -> base_at root q f -> package_at root p = package_at root q ->
                       says e "SHORT-LABEL" l -> says f "SHORT-LABEL" l -> p = q) /\
    (forall p q e f, base_at root p e -> base_at root q f -> package_at root p = package_at root q ->
                     says_true e "IS-DEFAULT" -> says_true f "IS-DEFAULT" -> p = q).

  (** The value of an attribute, the first one if it is given twice *)
  Definition attr_says (e : xml) (a : string) (o : option chars) : Prop :=
    match o with
    | Some v => exists l r, x_attrs e = l ++ (txt a, v) :: r /\ ~ In (txt a) (map fst l)
    | None => ~ In (txt a) (map fst (x_attrs e))
    end.
  (** A base of this label (without label: a default one) of the package [k] points to [t] *)
  Definition registered (root : xml) (base : option chars) (k t : chars) : Prop :=
    exists p e, base_at root p e /\ package_at root p = k /\ says e "PACKAGE-REF" t /\
      match base with Some l => says e "SHORT-LABEL" l | None => says_true e "IS-DEFAULT" end.
  (** [k] is a path at which [full] can be cut: what is left over is nothing or starts with / *)
  Definition cut (full k : chars) : Prop := exists r, full = k ++ r /\ (r = [] \/ exists r', r = "/"%char :: r').
  Definition no_package (root : xml) (k : chars) : Prop := exists p e, named_at root p e /\ path_at root p = k /\ ~ is_tag (txt "AR-PACKAGE") e.
  Definition applies (root : xml) (full : chars) (base : option chars) (k t : chars) : Prop :=
    cut full k /\ ~ no_package root k /\ registered root base k t.
  (** What a reference in the element at [p] stands for: itself if it is absolute, else it is below the target of the
      closest base *)
  Definition stands_for (root : xml) (p : list nat) (ref : chars) (base : option chars) (a : chars) : Prop :=
    (exists r, ref = "/"%char :: r) /\ a = ref \/
    (~ exists r, ref = "/"%char :: r) /\ exists k t, applies root (path_at root p) base k t /\ a = t ++ "/"%char :: ref /\
      forall k' t', applies root (path_at root p) base k' t' -> (List.length k' <= List.length k)%nat.
  (** The element with a path, of the kind that is asked for *)
  Definition leads_to (root : xml) (a : chars) (dest : option chars) (m : node) : Prop :=
    named_at root (fst m) (snd m) /\ path_at root (fst m) = a /\ match dest with Some d => is_tag d (snd m) | None => True end.

  (** An entry of a location: whether there may be many, whether it is marked as a reference, its name *)
  Definition entry : Type := bool * bool * string.
  Definition e_many (a : entry) : bool := fst (fst a).
  Definition e_name (a : entry) : chars := txt (snd a).
  Definition write_entry (a : entry) : string :=
    ((if e_many a then "*" else "") ++ (if snd (fst a) then "&" else "") ++ snd a)%string.
  Definition is_kid (n : node) (i : nat) (c : node) : Prop := nth_error (x_kids (snd n)) i = Some (snd c) /\ fst c = fst n ++ [i].
  (** The child [c] of [n] is a reference to [m] *)
  Definition refers (root : xml) (n c m : node) : Prop :=
    exists dest base a, attr_says (snd c) "DEST" dest /\ attr_says (snd c) "BASE" base /\ x_text (snd c) <> [] /\
      stands_for root (fst n) (x_text (snd c)) base a /\ leads_to root a dest m.
  Definition hop (root : xml) (n : node) (name : chars) (m : node) : Prop :=
    exists i c, is_kid n i c /\ (is_tag name (snd c) /\ m = c \/ is_tag (name ++ txt "-REF") (snd c) /\ refers root n c m).
  Fixpoint chain (root : xml) (n : node) (loc : list entry) (m : node) : Prop :=
    match loc with [] => m = n | a :: r => exists k, hop root n (e_name a) k /\ chain root k r m end.
  Definition candidate (n : node) (name : chars) (i : nat) : Prop :=
    exists c, is_kid n i c /\ (is_tag name (snd c) \/ is_tag (name ++ txt "-REF") (snd c)).
  (** A dangling reference, or two elements where there may be one *)
  Definition troubled (root : xml) (n : node) (a : entry) : Prop :=
    (exists i c, is_kid n i c /\ is_tag (e_name a ++ txt "-REF") (snd c) /\ forall m, ~ refers root n c m) \/
    e_many a = false /\ exists i j, i <> j /\ candidate n (e_name a) i /\ candidate n (e_name a) j.
End Spec.

(** ** Texts *)
Lemma drop_spec p l : exists a, l = a ++ drop_while p l /\ Forall (fun c => p c = true) a /\ (forall c m, drop_while p l = c :: m -> p c = false).
Proof.
  induction l as [|c l (a & E & F & D)]; [exists []; repeat split; [constructor|discriminate]|].
  cbn [drop_while]. destruct (p c) eqn:P.
  - exists (c :: a). split; [cbn; congruence|]. split; [now constructor|exact D].
  - exists []. split; [reflexivity|]. split; [constructor|]. now intros ? ? [= <- <-].
Qed.
Lemma drop_app p a l : Forall (fun c => p c = true) a -> drop_while p (a ++ l) = drop_while p l.
Proof. induction 1 as [|c a H _ IH]; [reflexivity|]. cbn. now rewrite H. Qed.
Lemma drop_keep p l : (forall c m, l = c :: m -> p c = false) -> drop_while p l = l.
Proof. destruct l as [|c l]; [reflexivity|]. intros H. cbn. now rewrite (H c l eq_refl). Qed.
Lemma Forall_rev' {A} (P : A -> Prop) l : Forall P l -> Forall P (rev l).
Proof. rewrite !Forall_forall. intros H x I. apply H. now apply in_rev. Qed.
Lemma strip_trimmed v c : strip_space v = c <-> trimmed v c.
Proof.
  unfold strip_space. split.
  - intros <-. destruct (drop_spec is_space v) as (a & E & F & D). set (d := drop_while is_space v) in *.
    destruct (drop_spec is_space (rev d)) as (b & E' & F' & D'). set (d' := drop_while is_space (rev d)) in *.
    assert (R : d = rev d' ++ rev b) by (rewrite <- rev_app_distr, <- E', rev_involutive; reflexivity).
    exists a, (rev b). split; [now rewrite <- R|]. split; [exact F|]. split; [now apply Forall_rev'|]. split.
    + intros x m H. rewrite H in R. cbn in R. exact (D _ _ R).
    + intros x m H. apply (f_equal (@rev ascii)) in H. rewrite rev_involutive, rev_app_distr in H. exact (D' _ _ H).
  - intros (l & r & -> & L & R & H & T). rewrite drop_app by exact L.
    destruct c as [|x c].
    + cbn [app]. replace r with (r ++ []) by apply app_nil_r. rewrite drop_app by exact R. reflexivity.
    + rewrite (drop_keep is_space ((x :: c) ++ r)) by (intros ? ? [= <- _]; exact (H x c eq_refl)).
      rewrite rev_app_distr, drop_app by now apply Forall_rev'. rewrite drop_keep; [apply rev_involutive|].
      intros y m E. apply (T y (rev m)). apply (f_equal (@rev ascii)) in E. rewrite rev_involutive in E. exact E.
Qed.
Lemma trimmed_fun v c d : trimmed v c -> trimmed v d -> c = d.
Proof. rewrite <- !strip_trimmed. congruence. Qed.

(** ** Trees *)
Fixpoint xml_tree_ind (P : xml -> Prop) (H : forall t a x ks, Forall (fun k => P (fst k)) ks -> P (Elem t a x ks)) (e : xml) : P e :=
  match e with
  | Elem t a x ks => H t a x ks ((fix go (l : list (xml * chars)) : Forall (fun k => P (fst k)) l :=
      match l with [] => Forall_nil _ | k :: r => Forall_cons k (xml_tree_ind P H (fst k)) (go r) end) ks)
  end.
Lemma foldM_app {A S} (f : S -> A -> result S) l m s : foldM f (l ++ m) s = let* s' := foldM f l s in foldM f m s'.
Proof. revert s. induction l as [|x l IH]; intros s; [reflexivity|]. cbn. destruct (f s x); [apply IH|reflexivity]. Qed.

Section Proofs.
  Context (ns : chars).
  Notation has_tag := (has_tag ns).
  Notation n_find := (n_find ns).

  Lemma number_find (f : xml -> bool) pos l : forall i,
    option_map snd (match filter (fun n : node => f (snd n)) (map (fun p => (pos ++ [fst p], snd p)) (number_from i l)) with k :: _ => Some k | [] => None end) = List.find f l.
  Proof. induction l as [|x l IH]; intros i; [reflexivity|]. cbn. destruct (f x); [reflexivity|apply IH]. Qed.
  Lemma find_first t n : option_map snd (n_find t n) = first_of ns t (snd n).
  Proof. exact (number_find (fun x => chars_eqb (x_tag x) (tagged ns t)) (fst n) (x_kids (snd n)) 0). Qed.

  Lemma stripped_ok t n w : stripped_text (n_find t n) = Ok w <-> says ns (snd n) t w.
  Proof.
    unfold says. rewrite <- find_first. unfold stripped_text, n_text. destruct (n_find t n) as [k|]; cbn.
    - split.
      + destruct (x_text (snd k)) as [|c r] eqn:E; [discriminate|]. intros [= H]. exists (snd k). split; [reflexivity|]. rewrite E. split; [discriminate|]. now apply strip_trimmed.
      + intros (k' & [= <-] & N & T). apply strip_trimmed in T. destruct (x_text (snd k)); [contradiction|]. exact (f_equal Ok T).
    - split; [discriminate|]. intros (k & E & _). discriminate.
  Qed.
  Lemma says_fun e t v w : says ns e t v -> says ns e t w -> v = w.
  Proof. intros (k & E & _ & T) (k' & E' & _ & T'). rewrite E in E'. injection E' as <-. exact (trimmed_fun _ _ _ T T'). Qed.
  Lemma flag_true t n : read_flag (n_find t n) = Ok true <-> says_true ns (snd n) t.
  Proof.
    unfold says_true, read_flag. destruct (n_find t n) as [k|] eqn:F.
    - rewrite <- F. split.
      + intros H. destruct (stripped_text (n_find t n)) as [w|] eqn:E; [|discriminate]. exists w. split; [now apply stripped_ok|].
        cbn in H. unfold is_text in H. destruct (cspec (lower_text w) (txt "true")) as [T|]; [exact T|discriminate].
      + intros (w & S & T). apply stripped_ok in S. rewrite S. cbn. unfold is_text, lower_text. destruct (cspec (map to_lower w) (txt "true")); [reflexivity|contradiction].
    - split; [discriminate|]. intros (w & (k & E & _) & _). rewrite <- find_first, F in E. discriminate.
  Qed.
  Lemma flag_ok t n : (exists b, read_flag (n_find t n) = Ok b) <-> readable ns (snd n) t.
  Proof.
    unfold readable. rewrite <- find_first. unfold read_flag. destruct (n_find t n) as [k|] eqn:F.
    - rewrite <- F. split.
      + intros (b & H). right. destruct (stripped_text (n_find t n)) as [w|] eqn:E; [|discriminate]. exists w. now apply stripped_ok.
      + intros [H|(w & H)]; [rewrite F in H; discriminate|]. apply stripped_ok in H. rewrite H. eexists. reflexivity.
    - cbn. split; [now left|]. intros _. now exists false.
  Qed.

  (** *** The walk through the tree as a list of visits: an element with its path and package *)
  Definition visit : Type := node * chars * chars.
  Definition v_node (v : visit) : node := fst (fst v).
  Definition v_path (v : visit) : chars := snd (fst v).
  Definition v_pkg (v : visit) : chars := snd v.
  Definition named (n : node) : bool := match n_find "SHORT-NAME" n with Some _ => true | None => false end.
  Definition step (st : refs) (v : visit) : result refs :=
    let* st1 := (if named (v_node v) then
                   match dget chars_eqb (r_node st) (v_path v) with
                   | Some _ => Err ValueError
                   | None => Ok (mkRefs (r_path st) (dset chars_eqb (r_node st) (v_path v) (v_node v)) (r_default st) (r_bases st))
                   end
                 else Ok st) in
    let st2 := mkRefs (dset pos_eqb (r_path st1) (fst (v_node v)) (v_path v)) (r_node st1) (r_default st1) (r_bases st1) in
    if has_tag "REFERENCE-BASE" (v_node v) then add_base ns (v_node v) (v_pkg v) st2 else Ok st2.
  Lemma add_one_step n path pkg st : add_one ns n path pkg st = step st (n, enter_path ns n path, enter_package ns n pkg).
  Proof. unfold add_one, step, named, v_node, v_path, v_pkg. cbn. destruct (n_find "SHORT-NAME" n); reflexivity. Qed.

  Fixpoint visits (pos : list nat) (e : xml) (path pkg : chars) : list visit :=
    let here := path ++ own_path ns e in
    let pk := pkg ++ own_package ns e in
    (pos, e, here, pk) ::
    match e with
    | Elem _ _ _ ks => (fix go (i : nat) (l : list (xml * chars)) : list visit :=
        match l with [] => [] | (k, _) :: r => visits (pos ++ [i]) k here pk ++ go (S i) r end) O ks
    end.
  Fixpoint below (pos : list nat) (i : nat) (l : list (xml * chars)) (here pk : chars) : list visit :=
    match l with [] => [] | (k, _) :: r => visits (pos ++ [i]) k here pk ++ below pos (S i) r here pk end.
  Lemma visits_eq pos t a x ks path pkg : let e := Elem t a x ks in
    visits pos e path pkg = (pos, e, path ++ own_path ns e, pkg ++ own_package ns e) :: below pos 0 ks (path ++ own_path ns e) (pkg ++ own_package ns e).
  Proof.
    intros e. subst e. cbn [visits]. f_equal. generalize (path ++ own_path ns (Elem t a x ks)) (pkg ++ own_package ns (Elem t a x ks)) 0%nat. intros h k. clear.
    induction ks as [|[y s] r IH]; intros i; [reflexivity|]. cbn [below]. f_equal. apply IH.
  Qed.
  Lemma enter_path_eq n path : enter_path ns n path = path ++ own_path ns (snd n).
  Proof.
    unfold enter_path, own_path, named_part. rewrite <- find_first. destruct (n_find "SHORT-NAME" n) as [k|]; cbn; [|symmetry; apply app_nil_r].
    unfold shown, n_text. destruct (x_text (snd k)); reflexivity.
  Qed.
  Lemma enter_package_eq n pkg : enter_package ns n pkg = pkg ++ own_package ns (snd n).
  Proof.
    unfold enter_package, own_package, named_part, Arxml.has_tag, tagged, n_tag. rewrite <- find_first. destruct (chars_eqb _ _); [|symmetry; apply app_nil_r].
    destruct (n_find "SHORT-NAME" n) as [k|]; [|reflexivity]. cbn. unfold shown, n_text. destruct (x_text (snd k)); reflexivity.
  Qed.
  Lemma add_sub_fold e : forall pos path pkg st, add_sub ns pos e path pkg st = foldM step (visits pos e path pkg) st.
  Proof.
    induction e as [t a x ks IH] using xml_tree_ind. intros pos path pkg st. rewrite visits_eq. cbn [foldM add_sub].
    rewrite add_one_step, enter_path_eq, enter_package_eq. cbn [snd]. set (e := Elem t a x ks). destruct (step st _) as [st'|]; [|reflexivity]. cbn [bind].
    generalize (path ++ own_path ns e) (pkg ++ own_package ns e). intros h p. generalize 0%nat. revert st'.
    induction IH as [|[k s] r Hk _ IHr]; intros st' i; [reflexivity|]. cbn [below]. rewrite foldM_app. cbn [fst] in Hk. rewrite Hk.
    destruct (foldM step (visits (pos ++ [i]) k h p) st'); [apply IHr|reflexivity].
  Qed.

  (** *** Visits and positions *)
  Lemma below_in (P : xml -> Prop) pos v h p ks : forall i,
    (In v (below pos i ks h p) <-> exists j k, nth_error (map fst ks) j = Some k /\ In v (visits (pos ++ [(i + j)%nat]) k h p)).
  Proof.
    induction ks as [|[k s] r IH]; intros i.
    - cbn. split; [intros []|]. intros ([|j] & k & E & _); discriminate.
    - cbn [below]. rewrite in_app_iff, IH. split.
      + intros [H|(j & k' & E & H)].
        * exists 0%nat, k. rewrite Nat.add_0_r. now split.
        * exists (S j), k'. rewrite Nat.add_succ_r. now split.
      + intros ([|j] & k' & E & H).
        * injection E as <-. rewrite Nat.add_0_r in H. now left.
        * right. exists j, k'. rewrite Nat.add_succ_r in H. now split.
  Qed.
  Lemma along_nil f e : along f e [] = f e. Proof. cbn. apply app_nil_r. Qed.
  Lemma along_cons f e i r k : nth_error (x_kids e) i = Some k -> along f e (i :: r) = f e ++ along f k r.
  Proof. intros H. cbn. now rewrite H. Qed.
  Lemma visits_in e : forall pos path pkg v, In v (visits pos e path pkg) <->
    exists q x, elem_at e q = Some x /\ v = (pos ++ q, x, path ++ path_at ns e q, pkg ++ package_at ns e q).
  Proof.
    induction e as [t a x ks IH] using xml_tree_ind. intros pos path pkg v. rewrite visits_eq. set (e := Elem t a x ks).
    cbn [In]. rewrite (below_in (fun _ => True)). split.
    - intros [<-|(j & k & E & H)].
      + exists [], e. split; [reflexivity|]. unfold path_at, package_at. now rewrite app_nil_r, !along_nil.
      + rewrite Forall_forall in IH. pose proof (nth_error_In _ _ E) as I. apply in_map_iff in I. destruct I as (ks' & <- & I).
        apply (IH ks' I) in H. destruct H as (q & y & Q & ->). exists (j :: q), y.
        split; [cbn [elem_at]; change (x_kids e) with (map fst ks); now rewrite E|].
        unfold path_at, package_at. rewrite !(along_cons _ e j q (fst ks')) by exact E. rewrite <- !app_assoc. reflexivity.
    - intros ([|j q] & y & Q & ->).
      + left. cbn in Q. injection Q as <-. unfold path_at, package_at. now rewrite app_nil_r, !along_nil.
      + right. cbn [elem_at] in Q. change (x_kids e) with (map fst ks) in Q. destruct (nth_error (map fst ks) j) as [k|] eqn:E; [|discriminate].
        exists j, k. split; [exact E|]. rewrite Forall_forall in IH. pose proof (nth_error_In _ _ E) as I. apply in_map_iff in I. destruct I as (ks' & <- & I).
        apply (IH ks' I). exists q, y. split; [exact Q|].
        unfold path_at, package_at. rewrite !(along_cons _ e j q (fst ks')) by exact E. rewrite <- !app_assoc. reflexivity.
  Qed.
  Lemma NoDup_app' {A} (l m : list A) : NoDup l -> NoDup m -> (forall x, In x l -> In x m -> False) -> NoDup (l ++ m).
  Proof.
    induction 1 as [|x l N _ IH]; [trivial|]. intros M D. cbn. constructor.
    - rewrite in_app_iff. intros [H|H]; [contradiction|]. exact (D x (or_introl eq_refl) H).
    - apply IH; [exact M|]. intros y H. apply D. now right.
  Qed.
  Definition v_pos (v : visit) : list nat := fst (v_node v).
  Lemma visits_nodup e : forall pos path pkg, NoDup (map v_pos (visits pos e path pkg)).
  Proof.
    induction e as [t a x ks IH] using xml_tree_ind. intros pos path pkg. rewrite visits_eq. set (e := Elem t a x ks). cbn [map]. constructor.
    - intros H. apply in_map_iff in H. destruct H as (v & E & H). apply (below_in (fun _ => True)) in H. destruct H as (j & k & _ & H).
      apply visits_in in H. destruct H as (q & y & _ & ->). cbn in E. apply (f_equal (@List.length nat)) in E. rewrite !app_length in E. cbn in E. lia.
    - generalize (path ++ own_path ns e) (pkg ++ own_package ns e) 0%nat. intros h p. clear e.
      induction IH as [|[k s] r Hk F IHr]; intros i; [constructor|]. cbn [below]. rewrite map_app. apply NoDup_app'; [apply Hk|apply IHr|].
      intros z A B. apply in_map_iff in A, B. destruct A as (v & <- & A), B as (w & E & B). apply visits_in in A. apply (below_in (fun _ => True)) in B.
      destruct B as (j & k' & _ & B). apply visits_in in B. destruct A as (q & y & _ & ->), B as (q' & y' & _ & ->).
      cbn in E. rewrite <- !app_assoc in E. apply app_inv_head in E. cbn in E. injection E as E _. lia.
  Qed.

  (** *** What the walk collects *)
  Definition is_base (v : visit) : bool := has_tag "REFERENCE-BASE" (v_node v).
  Definition label (v : visit) : result chars := stripped_text (n_find "SHORT-LABEL" (v_node v)).
  Definition target (v : visit) : result chars := stripped_text (n_find "PACKAGE-REF" (v_node v)).
  Definition dflag (v : visit) : result bool := read_flag (n_find "IS-DEFAULT" (v_node v)).
  Definition gflag (v : visit) : result bool := read_flag (n_find "IS-GLOBAL" (v_node v)).
  Definition nodes1 (v : visit) : list (chars * node) := if named (v_node v) then [(v_path v, v_node v)] else [].
  Definition bases1 (v : visit) : list ((chars * chars) * chars) :=
    if is_base v then match label v, target v with Ok l, Ok t => [((v_pkg v, l), t)] | _, _ => [] end else [].
  Definition defaults1 (v : visit) : list (chars * chars) :=
    if is_base v then match target v, dflag v with Ok t, Ok true => [(v_pkg v, t)] | _, _ => [] end else [].
  Definition fine (v : visit) : Prop :=
    is_base v = true -> (exists l, label v = Ok l) /\ (exists t, target v = Ok t) /\ (exists d, dflag v = Ok d) /\ gflag v = Ok false.
  Definition base_get (st : refs) (p b : chars) : option chars :=
    match dget chars_eqb (r_bases st) p with Some d => dget chars_eqb d b | None => None end.
  Definition pair_eqb (a b : chars * chars) : bool := chars_eqb (fst a) (fst b) && chars_eqb (snd a) (snd b).
  Lemma pair_spec a b : reflect (a = b) (pair_eqb a b).
  Proof.
    destruct a as [a1 a2], b as [b1 b2]. unfold pair_eqb. cbn. destruct (cspec a1 b1), (cspec a2 b2); cbn; constructor; congruence.
  Qed.
  Lemma pos_spec a b : reflect (a = b) (pos_eqb a b).
  Proof. unfold pos_eqb. destruct (list_eq_dec Nat.eq_dec a b); constructor; assumption. Qed.
  Record inv (V : list visit) (st : refs) : Prop := mkInv {
    i_path : r_path st = map (fun v => (v_pos v, v_path v)) V;
    i_node : r_node st = flat_map nodes1 V;
    i_default : r_default st = flat_map defaults1 V;
    i_bases : forall p b, base_get st p b = dget pair_eqb (flat_map bases1 V) (p, b) }.
  Definition fresh {K T} (l m : list (K * T)) : Prop := forall x, In x m -> ~ In (fst x) (map fst l).

  Lemma flat_snoc {A B} (f : A -> list B) l x : flat_map f (l ++ [x]) = flat_map f l ++ f x.
  Proof. rewrite flat_map_app. cbn. now rewrite app_nil_r. Qed.
  Lemma path_new V st v : inv V st -> ~ In (v_pos v) (map v_pos V) ->
    dset pos_eqb (r_path st) (v_pos v) (v_path v) = map (fun v => (v_pos v, v_path v)) (V ++ [v]).
  Proof.
    intros I N. rewrite (i_path _ _ I), map_app. cbn. apply (set_new _ pos_spec). intros H. apply N. rewrite map_map in H. exact H.
  Qed.
  Lemma base_get_set st p b p' b' t nd df pa :
    base_get (mkRefs pa nd df (dset chars_eqb (r_bases st) p (dset chars_eqb match dget chars_eqb (r_bases st) p with Some d => d | None => [] end b t))) p' b' =
    if pair_eqb (p, b) (p', b') then Some t else base_get st p' b'.
  Proof.
    unfold base_get. cbn [r_bases]. rewrite (get_set _ cspec). unfold pair_eqb. cbn [fst snd]. destruct (cspec p p') as [<-|N]; cbn [andb]; [|reflexivity].
    rewrite (get_set _ cspec). destruct (cspec b b') as [<-|N]; [reflexivity|]. destruct (dget chars_eqb (r_bases st) p); reflexivity.
  Qed.
  Lemma known_get st p b : dget chars_eqb match dget chars_eqb (r_bases st) p with Some d => d | None => [] end b = base_get st p b.
  Proof. unfold base_get. destruct (dget chars_eqb (r_bases st) p); reflexivity. Qed.

  Lemma step_fwd V st v : inv V st -> ~ In (v_pos v) (map v_pos V) -> fine v ->
    fresh (flat_map nodes1 V) (nodes1 v) -> fresh (flat_map bases1 V) (bases1 v) -> fresh (flat_map defaults1 V) (defaults1 v) ->
    exists st', step st v = Ok st' /\ inv (V ++ [v]) st'.
  Proof.
    intros I N F A B D. unfold step.
    assert (exists nd, (if named (v_node v) then
                 match dget chars_eqb (r_node st) (v_path v) with
                 | Some _ => Err ValueError
                 | None => Ok (mkRefs (r_path st) (dset chars_eqb (r_node st) (v_path v) (v_node v)) (r_default st) (r_bases st))
                 end else Ok st) = Ok (mkRefs (r_path st) nd (r_default st) (r_bases st)) /\ nd = flat_map nodes1 (V ++ [v])) as (nd & -> & HN).
    { rewrite flat_snoc, <- (i_node _ _ I). unfold nodes1 in A |- *. destruct (named (v_node v)).
      - assert (~ In (v_path v) (map fst (r_node st))) as K by (rewrite (i_node _ _ I); exact (A _ (or_introl eq_refl))).
        rewrite (proj2 (get_none _ cspec _ _) K), (set_new _ cspec) by exact K. eexists. split; reflexivity.
      - exists (r_node st). rewrite app_nil_r. split; [|reflexivity]. destruct st; reflexivity. }
    cbn [bind r_path r_node r_default r_bases]. rewrite (path_new _ _ _ I N : dset pos_eqb (r_path st) (fst (v_node v)) (v_path v) = _).
    unfold fine in F. unfold bases1 at 2 in B. unfold defaults1 at 2 in D. fold (is_base v). destruct (is_base v) eqn:IB.
    - destruct (F eq_refl) as ((l & L) & (t & T) & (d & DF) & G). rewrite L, T in B. rewrite T, DF in D.
      unfold add_base. fold (label v) (target v) (dflag v) (gflag v). rewrite L, T, DF, G. cbn [bind r_default r_bases r_path r_node].
      assert (exists df, (if d then match dget chars_eqb (r_default st) (v_pkg v) with Some _ => Err ValueError | None => Ok (dset chars_eqb (r_default st) (v_pkg v) t) end
                          else Ok (r_default st)) = Ok df /\ df = flat_map defaults1 (V ++ [v])) as (df & -> & HD).
      { rewrite flat_snoc, <- (i_default _ _ I). unfold defaults1. rewrite IB, T, DF. destruct d.
        - assert (~ In (v_pkg v) (map fst (r_default st))) as K by (rewrite (i_default _ _ I); exact (D _ (or_introl eq_refl))).
          rewrite (proj2 (get_none _ cspec _ _) K), (set_new _ cspec) by exact K. eexists. split; reflexivity.
        - exists (r_default st). rewrite app_nil_r. now split. }
      cbn [bind]. rewrite known_get, (i_bases _ _ I).
      rewrite (proj2 (get_none _ pair_spec _ _) (B _ (or_introl eq_refl) : ~ In (v_pkg v, l) _)).
      eexists. split; [reflexivity|]. constructor; cbn [r_path r_node r_default]; [reflexivity|exact HN|exact HD|].
      intros p b. rewrite base_get_set, (i_bases _ _ I), flat_snoc, (get_app pair_eqb). unfold bases1 at 3. rewrite IB, L, T. cbn [dget].
      destruct (pair_spec (v_pkg v, l) (p, b)) as [E|E].
      + rewrite <- E, (proj2 (get_none _ pair_spec _ _) (B _ (or_introl eq_refl) : ~ In (v_pkg v, l) _)). reflexivity.
      + destruct (dget pair_eqb (flat_map bases1 V) (p, b)); reflexivity.
    - eexists. split; [reflexivity|]. constructor; cbn [r_path r_node r_default]; [reflexivity|exact HN| |].
      + rewrite flat_snoc. unfold defaults1 at 2. rewrite IB, app_nil_r. apply (i_default _ _ I).
      + intros p b. rewrite flat_snoc. unfold bases1 at 2. rewrite IB, app_nil_r. apply (i_bases _ _ I).
  Qed.
  Lemma step_bwd V st v st' : inv V st -> step st v = Ok st' ->
    fine v /\ fresh (flat_map nodes1 V) (nodes1 v) /\ fresh (flat_map bases1 V) (bases1 v) /\ fresh (flat_map defaults1 V) (defaults1 v).
  Proof.
    intros I H. unfold step in H. apply bind_ok in H. destruct H as (st1 & H1 & H).
    assert (fresh (flat_map nodes1 V) (nodes1 v) /\ r_default st1 = r_default st /\ r_bases st1 = r_bases st) as (A & E1 & E2).
    { unfold nodes1 at 2. destruct (named (v_node v)).
      - destruct (dget chars_eqb (r_node st) (v_path v)) eqn:G; [discriminate|]. injection H1 as <-. split; [|now split].
        intros x [<-|[]]. rewrite <- (i_node _ _ I). apply (get_none _ cspec). exact G.
      - injection H1 as <-. split; [|now split]. intros x []. }
    unfold fine, bases1 at 2, defaults1 at 2. fold (is_base v) in H. destruct (is_base v).
    2:{ split; [discriminate|]. split; [exact A|]. split; intros x []. }
    unfold add_base in H. fold (label v) (target v) (dflag v) (gflag v) in H.
    destruct (label v) as [l|] eqn:L; [|discriminate]. destruct (target v) as [t|] eqn:T; [|discriminate]. destruct (dflag v) as [d|] eqn:DF; [|discriminate].
    cbn [bind r_default r_bases r_path r_node] in H. apply bind_ok in H. destruct H as (df & HD & H). destruct (gflag v) as [g|] eqn:G; [|discriminate].
    cbn [bind] in H. destruct g; [discriminate|]. rewrite E1 in HD. rewrite E2, known_get, (i_bases _ _ I) in H.
    destruct (dget pair_eqb (flat_map bases1 V) (v_pkg v, l)) eqn:K; [discriminate|].
    split; [intros _; split; [now exists l|split; [now exists t|split; [now exists d|reflexivity]]]|]. split; [exact A|]. split.
    - intros x [<-|[]]. apply (get_none _ pair_spec). exact K.
    - destruct d; [|intros x []]. intros x [<-|[]]. rewrite <- (i_default _ _ I). destruct (dget chars_eqb (r_default st) (v_pkg v)) eqn:Q; [discriminate|].
      apply (get_none _ cspec). exact Q.
  Qed.

  Lemma nodup_snoc {K T} (l m : list (K * T)) : (List.length m <= 1)%nat -> (NoDup (map fst (l ++ m)) <-> NoDup (map fst l) /\ fresh l m).
  Proof.
    intros L. destruct m as [|x [|y m]]; [| |cbn in L; lia].
    - rewrite app_nil_r. split; [intros H; split; [exact H|intros y []]|now intros []].
    - rewrite map_app. cbn. split.
      + intros H. pose proof (NoDup_remove _ _ _ H) as (A & B). rewrite app_nil_r in A, B. split; [exact A|]. intros y [<-|[]]. exact B.
      + intros (A & B). apply NoDup_app'; [exact A|repeat constructor; intros []|]. intros k H [<-|[]]. exact (B x (or_introl eq_refl) H).
  Qed.
  Lemma nodes1_len v : (List.length (nodes1 v) <= 1)%nat. Proof. unfold nodes1. destruct (named _); cbn; lia. Qed.
  Lemma bases1_len v : (List.length (bases1 v) <= 1)%nat. Proof. unfold bases1. destruct (is_base v), (label v), (target v); cbn; lia. Qed.
  Lemma defaults1_len v : (List.length (defaults1 v) <= 1)%nat. Proof. unfold defaults1. destruct (is_base v), (target v), (dflag v) as [[]|]; cbn; lia. Qed.
  Definition good (V : list visit) : Prop :=
    Forall fine V /\ NoDup (map fst (flat_map nodes1 V)) /\ NoDup (map fst (flat_map bases1 V)) /\ NoDup (map fst (flat_map defaults1 V)).
  Lemma good_snoc V v : good (V ++ [v]) <-> good V /\ fine v /\ fresh (flat_map nodes1 V) (nodes1 v) /\ fresh (flat_map bases1 V) (bases1 v) /\ fresh (flat_map defaults1 V) (defaults1 v).
  Proof.
    unfold good. rewrite !flat_snoc, Forall_app, (nodup_snoc _ _ (nodes1_len v)), (nodup_snoc _ _ (bases1_len v)), (nodup_snoc _ _ (defaults1_len v)).
    assert (Forall fine [v] <-> fine v) as -> by (split; [apply Forall_inv|auto]). tauto.
  Qed.
  Lemma walk V : NoDup (map v_pos V) ->
    (good V -> exists st, foldM step V no_refs = Ok st) /\ (forall st, foldM step V no_refs = Ok st -> good V /\ inv V st).
  Proof.
    induction V as [|v V IH] using rev_ind.
    - intros _. split; [intros _; now exists no_refs|]. intros st [= <-]. split; [repeat split; constructor|]. constructor; try reflexivity. 
    - rewrite map_app. intros N. cbn [map] in N. pose proof (NoDup_remove _ _ _ N) as (N1 & N2). rewrite app_nil_r in N1, N2.
      destruct (IH N1) as (F & G). split.
      + intros H. apply good_snoc in H. destruct H as (H & A & B & C & D). destruct (F H) as (st & E). rewrite foldM_app, E. cbn [bind foldM].
        destruct (step_fwd V st v (proj2 (G _ E)) N2 A B C D) as (st' & -> & _). now exists st'.
      + intros st H. rewrite foldM_app in H. apply bind_ok in H. destruct H as (st1 & E & H). cbn [foldM] in H. apply bind_ok in H. destruct H as (st2 & S & H). injection H as <-.
        destruct (G _ E) as (H & I). destruct (step_bwd V st1 v st2 I S) as (A & B & C & D).
        split; [apply good_snoc; exact (conj H (conj A (conj B (conj C D))))|]. destruct (step_fwd V st1 v I N2 A B C D) as (st' & S' & I'). rewrite S in S'. injection S' as <-. exact I'.
  Qed.

  (** *** From visits to positions *)
  Lemma NoDup_flat_single {O K T} (g : O -> list (K * T)) (pos : O -> list nat) V :
    NoDup (map pos V) -> (forall v, List.length (g v) <= 1)%nat ->
    (NoDup (map fst (flat_map g V)) <-> forall v w x y, In v V -> In w V -> In x (g v) -> In y (g w) -> fst x = fst y -> pos v = pos w).
  Proof.
    intros N L. induction V as [|v V IH] using rev_ind.
    - split; [intros _ ? ? ? ? []|constructor].
    - rewrite map_app in N. cbn [map] in N. pose proof (NoDup_remove _ _ _ N) as (N1 & N2). rewrite app_nil_r in N1, N2.
      rewrite flat_snoc, (nodup_snoc _ _ (L v)), (IH N1). split.
      + intros (H & F) a b x y A B X Y E. apply in_app_iff in A, B. destruct A as [A|[<-|[]]], B as [B|[<-|[]]].
        * exact (H a b x y A B X Y E).
        * exfalso. apply (F y Y). rewrite <- E. apply in_map. apply in_flat_map. now exists a.
        * exfalso. apply (F x X). rewrite E. apply in_map. apply in_flat_map. now exists b.
        * reflexivity.
      + intros H. split.
        * intros a b x y A B. apply H; apply in_app_iff; now left.
        * intros y Y I. apply in_map_iff in I. destruct I as (x & E & I). apply in_flat_map in I. destruct I as (a & A & X).
          apply N2. rewrite <- (H a v x y); [now apply in_map|apply in_app_iff; now left|apply in_app_iff; right; now left|exact X|exact Y|exact E].
  Qed.

  Context (root : xml).
  Definition V : list visit := visits [] root [] [].
  Definition visit_at (p : list nat) (e : xml) : visit := ((p, e), path_at ns root p, package_at ns root p).
  Lemma V_in v : In v V <-> exists p e, elem_at root p = Some e /\ v = visit_at p e.
  Proof. unfold V. rewrite visits_in. reflexivity. Qed.
  Lemma named_iff p e : named (p, e) = true <-> first_of ns "SHORT-NAME" e <> None.
  Proof. unfold named. rewrite <- (find_first "SHORT-NAME" (p, e) : _ = first_of ns "SHORT-NAME" e). destruct (n_find "SHORT-NAME" (p, e)); cbn; split; congruence. Qed.
  Lemma base_iff v : is_base v = true <-> is_tag ns (txt "REFERENCE-BASE") (snd (v_node v)).
  Proof. unfold is_base, Arxml.has_tag, is_tag, tagged, n_tag. destruct (cspec (x_tag (snd (v_node v))) ("{"%char :: ns ++ "}"%char :: txt "REFERENCE-BASE")); split; congruence. Qed.
  Lemma fine_iff v : fine v <-> (is_tag ns (txt "REFERENCE-BASE") (snd (v_node v)) -> good_base ns (snd (v_node v))).
  Proof.
    unfold fine, good_base. rewrite base_iff. unfold label, target, dflag, gflag.
    setoid_rewrite stripped_ok. rewrite flag_ok. rewrite <- (flag_ok "IS-GLOBAL"), <- (flag_true "IS-GLOBAL").
    split; intros H B; destruct (H B) as (L & T & D & G); (split; [exact L|]; split; [exact T|]; split; [exact D|]).
    - rewrite G. split; [now exists false|discriminate].
    - destruct G as ((b & E) & G). rewrite E in G |- *. destruct b; [contradiction|reflexivity].
  Qed.
  Lemma nodes1_in v x : In x (nodes1 v) <-> first_of ns "SHORT-NAME" (snd (v_node v)) <> None /\ x = (v_path v, v_node v).
  Proof.
    unfold nodes1. destruct v as [[[p e] h] k]. cbn. rewrite <- (named_iff p e). unfold v_node, v_path. cbn. destruct (named (p, e)); cbn; intuition congruence.
  Qed.
  Lemma bases1_in v x : In x (bases1 v) <-> is_tag ns (txt "REFERENCE-BASE") (snd (v_node v)) /\
    exists l t, says ns (snd (v_node v)) "SHORT-LABEL" l /\ says ns (snd (v_node v)) "PACKAGE-REF" t /\ x = ((v_pkg v, l), t).
  Proof.
    rewrite <- base_iff. unfold bases1. setoid_rewrite <- stripped_ok. fold (label v) (target v). destruct (is_base v); [|split; [intros []|intros ([=] & _)]].
    destruct (label v) as [l|], (target v) as [t|]; cbn.
    - split.
      + intros [<-|[]]. split; [reflexivity|]. now exists l, t.
      + intros (_ & l' & t' & [= <-] & [= <-] & ->). now left.
    - split; [intros []|]. intros (_ & l' & t' & _ & [=] & _).
    - split; [intros []|]. intros (_ & l' & t' & [=] & _).
    - split; [intros []|]. intros (_ & l' & t' & [=] & _).
  Qed.
  Lemma defaults1_in v x : In x (defaults1 v) <-> is_tag ns (txt "REFERENCE-BASE") (snd (v_node v)) /\
    says_true ns (snd (v_node v)) "IS-DEFAULT" /\ exists t, says ns (snd (v_node v)) "PACKAGE-REF" t /\ x = (v_pkg v, t).
  Proof.
    rewrite <- base_iff, <- flag_true. unfold defaults1. setoid_rewrite <- stripped_ok. fold (target v) (dflag v). destruct (is_base v); [|split; [intros []|intros ([=] & _)]].
    destruct (target v) as [t|]; [|split; [intros []|intros (_ & _ & t' & [=] & _)]].
    destruct (dflag v) as [[]|]; cbn.
    - split.
      + intros [<-|[]]. split; [reflexivity|]. split; [reflexivity|]. now exists t.
      + intros (_ & _ & t' & [= <-] & ->). now left.
    - split; [intros []|]. intros (_ & [=] & _).
    - split; [intros []|]. intros (_ & [=] & _).
  Qed.

  Lemma good_iff : good V <-> acceptable ns root.
  Proof.
    unfold good, acceptable. pose proof (visits_nodup root [] [] []) as N. fold V in N.
    rewrite (NoDup_flat_single nodes1 v_pos V N nodes1_len), (NoDup_flat_single bases1 v_pos V N bases1_len), (NoDup_flat_single defaults1 v_pos V N defaults1_len), Forall_forall.
    split.
    - intros (F & A & B & D). assert (GB : forall p e, base_at ns root p e -> good_base ns e).
      { intros p e (E & T). apply (proj1 (fine_iff (visit_at p e))); [apply F, V_in; eauto|exact T]. }
      split; [|split; [exact GB|split]].
      + intros p q e f (E & NE) (Q & NQ) P. apply (A (visit_at p e) (visit_at q f) (path_at ns root p, (p, e)) (path_at ns root q, (q, f))); [apply V_in; eauto|apply V_in; eauto| | |exact P].
        * apply nodes1_in. now split.
        * apply nodes1_in. now split.
      + intros p q e f l (E & T) (Q & U) P L M. destruct (GB p e (conj E T)) as (_ & (t & S) & _). destruct (GB q f (conj Q U)) as (_ & (u & S') & _).
        apply (B (visit_at p e) (visit_at q f) ((package_at ns root p, l), t) ((package_at ns root q, l), u)); [apply V_in; eauto|apply V_in; eauto| | |cbn; congruence].
        * apply bases1_in. split; [exact T|]. now exists l, t.
        * apply bases1_in. split; [exact U|]. now exists l, u.
      + intros p q e f (E & T) (Q & U) P L M. destruct (GB p e (conj E T)) as (_ & (t & S) & _). destruct (GB q f (conj Q U)) as (_ & (u & S') & _).
        apply (D (visit_at p e) (visit_at q f) (package_at ns root p, t) (package_at ns root q, u)); [apply V_in; eauto|apply V_in; eauto| | |exact P].
        * apply defaults1_in. split; [exact T|]. split; [exact L|]. now exists t.
        * apply defaults1_in. split; [exact U|]. split; [exact M|]. now exists u.
    - intros (A & G & B & D). split; [|split; [|split]].
      + intros v I. apply V_in in I. destruct I as (p & e & E & ->). apply fine_iff. intros T. exact (G p e (conj E T)).
      + intros v w x y I J X Y E. apply V_in in I, J. destruct I as (p & e & Ep & ->), J as (q & f & Eq & ->).
        apply nodes1_in in X, Y. destruct X as (NX & ->), Y as (NY & ->). exact (A p q e f (conj Ep NX) (conj Eq NY) E).
      + intros v w x y I J X Y E. apply V_in in I, J. destruct I as (p & e & Ep & ->), J as (q & f & Eq & ->).
        apply bases1_in in X, Y. destruct X as (TX & l & t & L & _ & ->), Y as (TY & l' & t' & L' & _ & ->). cbn in E. injection E as E1 E2. subst l'.
        exact (B p q e f l (conj Ep TX) (conj Eq TY) E1 L L').
      + intros v w x y I J X Y E. apply V_in in I, J. destruct I as (p & e & Ep & ->), J as (q & f & Eq & ->).
        apply defaults1_in in X, Y. destruct X as (TX & L & t & _ & ->), Y as (TY & L' & t' & _ & ->). exact (D p q e f (conj Ep TX) (conj Eq TY) E L L').
  Qed.
  Lemma dicts_fold : reference_dicts ns root = foldM step V no_refs.
  Proof. unfold reference_dicts. apply add_sub_fold. Qed.
  Lemma dicts_inv rf : reference_dicts ns root = Ok rf -> good V /\ inv V rf.
  Proof. rewrite dicts_fold. apply (walk V (visits_nodup root [] [] [])). Qed.

  (** A document is accepted exactly if no two named elements have the same path, every reference base is complete and
      not global, and no package has two bases of one label or two default bases. *)
  Theorem C69_accepts : (exists rf, reference_dicts ns root = Ok rf) <-> acceptable ns root.
  Proof.
    rewrite <- good_iff. split.
    - intros (rf & H). exact (proj1 (dicts_inv rf H)).
    - intros G. rewrite dicts_fold. apply (walk V (visits_nodup root [] [] [])). exact G.
  Qed.

  Lemma stripped_err o e : stripped_text o = Err e -> e = AttributeError.
  Proof. unfold stripped_text. destruct o as [k|]; [destruct (n_text k)|]; congruence. Qed.
  Lemma flag_err o e : read_flag o = Err e -> e = AttributeError.
  Proof. unfold read_flag. destruct o as [k|]; [|discriminate]. destruct (stripped_text (Some k)) eqn:E; [discriminate|]. intros [= <-]. exact (stripped_err _ _ E). Qed.
  Lemma step_err st v e : step st v = Err e -> e = ValueError \/ e = AttributeError.
  Proof.
    unfold step. destruct (named (v_node v)); [destruct (dget chars_eqb (r_node st) (v_path v)); [intros [= <-]; now left|]|]; cbn [bind]; (destruct (has_tag _ _); [|discriminate]);
    unfold add_base; (destruct (stripped_text (n_find "SHORT-LABEL" _)) eqn:L; [|intros [= <-]; right; exact (stripped_err _ _ L)]);
    (destruct (stripped_text (n_find "PACKAGE-REF" _)) eqn:T; [|intros [= <-]; right; exact (stripped_err _ _ T)]);
    (destruct (read_flag (n_find "IS-DEFAULT" _)) as [d|] eqn:D; [|intros [= <-]; right; exact (flag_err _ _ D)]); cbn [bind r_default];
    (destruct d; [destruct (dget chars_eqb (r_default st) (v_pkg v)); [intros [= <-]; now left|]|]); cbn [bind];
    (destruct (read_flag (n_find "IS-GLOBAL" _)) as [g|] eqn:G; [|intros [= <-]; right; exact (flag_err _ _ G)]); cbn [bind];
    (destruct g; [intros [= <-]; now left|]); match goal with |- context [dget chars_eqb ?x ?y] => destruct (dget chars_eqb x y) end; first [discriminate | intros [= <-]; now left].
  Qed.
  Lemma fold_err l : forall st e, foldM step l st = Err e -> e = ValueError \/ e = AttributeError.
  Proof.
    induction l as [|v l IH]; intros st e; [discriminate|]. cbn. destruct (step st v) eqn:S; [apply IH|]. intros [= <-]. exact (step_err _ _ _ S).
  Qed.
  (** A document that is not accepted is refused with one of two exceptions. *)
  Theorem C69_refused e : reference_dicts ns root = Err e -> e = ValueError \/ e = AttributeError.
  Proof. rewrite dicts_fold. apply fold_err. Qed.

  (** *** Cuts of a path *)
  Lemma split_nonempty c l : exists w ws, split_on c l = w :: ws.
  Proof. induction l as [|x l (w & ws & E)]; cbn; [eauto|]. destruct (Ascii.eqb x c); [eauto|]. rewrite E. eauto. Qed.
  Lemma join_slash r i : join_with slash (firstn (S (S i)) (split_on slash (slash :: r))) = slash :: join_with slash (firstn (S i) (split_on slash r)).
  Proof. destruct (split_nonempty slash r) as (w & ws & E). cbn [split_on]. rewrite (Ascii.eqb_refl slash), E. reflexivity. Qed.
  Lemma join_other x r i : x <> slash -> join_with slash (firstn (S i) (split_on slash (x :: r))) = x :: join_with slash (firstn (S i) (split_on slash r)).
  Proof.
    intros N. destruct (split_nonempty slash r) as (w & ws & E). cbn [split_on]. rewrite (proj2 (Ascii.eqb_neq x slash) N), E. cbn [firstn join_with].
    destruct (firstn i ws); reflexivity.
  Qed.
  Lemma split_len x r : List.length (split_on slash (x :: r)) = ((if Ascii.eqb x slash then 1 else 0) + List.length (split_on slash r))%nat.
  Proof. cbn [split_on]. destruct (Ascii.eqb x slash); [reflexivity|]. destruct (split_nonempty slash r) as (w & ws & ->). reflexivity. Qed.
  Lemma cut_iff p : forall k, cut p k <-> exists i, (i < List.length (split_on slash p))%nat /\ k = join_with slash (firstn (S i) (split_on slash p)).
  Proof.
    induction p as [|x p IH]; intros k.
    - split.
      + intros (r & E & _). symmetry in E. apply app_eq_nil in E. destruct E as (-> & ->). exists 0%nat. split; [cbn; lia|reflexivity].
      + intros (i & L & ->). cbn in L. assert (i = 0)%nat as -> by lia. exists []. split; [reflexivity|now left].
    - rewrite split_len. destruct (ascii_dec x slash) as [->|N].
      + rewrite (Ascii.eqb_refl slash). split.
        * intros (r & E & D). destruct k as [|c k].
          { exists 0%nat. split; [cbn; lia|]. cbn [split_on]. rewrite (Ascii.eqb_refl slash). reflexivity. }
          cbn in E. injection E as <- E. assert (C : cut p k) by (exists r; now split). apply IH in C. destruct C as (i & L & ->).
          exists (S i). split; [cbn; lia|]. symmetry. apply join_slash.
        * intros ([|i] & L & ->).
          { cbn [split_on]. rewrite (Ascii.eqb_refl slash). exists (slash :: p). split; [reflexivity|]. right. now exists p. }
          rewrite join_slash. assert (C : cut p (join_with slash (firstn (S i) (split_on slash p)))) by (apply IH; exists i; split; [cbn in L; lia|reflexivity]).
          destruct C as (r & E & D). exists r. split; [exact (f_equal (cons slash) E)|exact D].
      + rewrite (proj2 (Ascii.eqb_neq x slash) N). cbn [Nat.add]. split.
        * intros (r & E & D). destruct k as [|c k].
          { cbn in E. subst r. destruct D as [D|(r' & D)]; [discriminate|]. injection D as D _. contradiction. }
          cbn in E. injection E as <- E. assert (C : cut p k) by (exists r; now split). apply IH in C. destruct C as (i & L & ->).
          exists i. split; [exact L|]. symmetry. now apply join_other.
        * intros (i & L & ->). rewrite join_other by exact N.
          assert (C : cut p (join_with slash (firstn (S i) (split_on slash p)))) by (apply IH; now exists i).
          destruct C as (r & E & D). exists r. split; [exact (f_equal (cons x) E)|exact D].
  Qed.
  Lemma cut_mono p : forall i j, (i < j < List.length (split_on slash p))%nat ->
    (List.length (join_with slash (firstn (S i) (split_on slash p))) < List.length (join_with slash (firstn (S j) (split_on slash p))))%nat.
  Proof.
    induction p as [|x p IH]; intros i j H; [cbn in H; lia|]. rewrite split_len in H. destruct (ascii_dec x slash) as [->|N].
    - rewrite (Ascii.eqb_refl slash) in H. destruct j as [|j]; [lia|]. rewrite join_slash. destruct i as [|i].
      + cbn [split_on]. rewrite (Ascii.eqb_refl slash). cbn. lia.
      + rewrite join_slash. cbn [List.length]. apply -> Nat.succ_lt_mono. apply IH. cbn in H. lia.
    - rewrite (proj2 (Ascii.eqb_neq x slash) N) in H. rewrite !join_other by exact N. cbn [List.length]. apply -> Nat.succ_lt_mono. apply IH. cbn in H. lia.
  Qed.

  (** *** The dictionaries *)
  Context (rf : refs) (OK : reference_dicts ns root = Ok rf).
  Lemma rf_inv : inv V rf. Proof using OK. exact (proj2 (dicts_inv rf OK)). Qed.
  Lemma rf_good : good V. Proof using OK. exact (proj1 (dicts_inv rf OK)). Qed.
  Lemma node_get k m : dget chars_eqb (r_node rf) k = Some m <-> named_at ns root (fst m) (snd m) /\ path_at ns root (fst m) = k.
  Proof using OK.
    rewrite (i_node _ _ rf_inv). destruct rf_good as (_ & ND & _). split.
    - intros H. apply (get_in _ cspec) in H. apply in_flat_map in H. destruct H as (v & I & H). apply V_in in I. destruct I as (p & e & E & ->).
      apply nodes1_in in H. destruct H as (N & [= -> ->]). now repeat split.
    - intros ((E & N) & <-). apply (in_get _ cspec); [exact ND|]. apply in_flat_map. exists (visit_at (fst m) (snd m)). split; [apply V_in; eauto|].
      apply nodes1_in. split; [exact N|]. destruct m. reflexivity.
  Qed.
  Lemma path_get p e : elem_at root p = Some e -> path_of rf (p, e) = Ok (path_at ns root p).
  Proof using OK.
    intros E. unfold path_of. rewrite (i_path _ _ rf_inv), (in_get _ pos_spec _ p (path_at ns root p)); [reflexivity| |].
    - rewrite map_map. cbn. exact (visits_nodup root [] [] []).
    - apply in_map_iff. exists (visit_at p e). split; [reflexivity|]. apply V_in. eauto.
  Qed.
  Lemma base_lookup base k t :
    match base with None => dget chars_eqb (r_default rf) k | Some b => match dget chars_eqb (r_bases rf) k with Some d => dget chars_eqb d b | None => None end end = Some t
    <-> registered ns root base k t.
  Proof using OK.
    destruct rf_good as (_ & _ & NB & NDf). destruct base as [b|].
    - change (base_get rf k b = Some t <-> registered ns root (Some b) k t). rewrite (i_bases _ _ rf_inv). split.
      + intros H. apply (get_in _ pair_spec) in H. apply in_flat_map in H. destruct H as (v & I & H). apply V_in in I. destruct I as (p & e & E & ->).
        apply bases1_in in H. destruct H as (T & l & u & L & U & [= -> -> ->]). exists p, e. now repeat split.
      + intros (p & e & (E & T) & <- & U & L). apply (in_get _ pair_spec); [exact NB|]. apply in_flat_map. exists (visit_at p e). split; [apply V_in; eauto|].
        apply bases1_in. split; [exact T|]. now exists b, t.
    - rewrite (i_default _ _ rf_inv). split.
      + intros H. apply (get_in _ cspec) in H. apply in_flat_map in H. destruct H as (v & I & H). apply V_in in I. destruct I as (p & e & E & ->).
        apply defaults1_in in H. destruct H as (T & D & u & U & [= -> ->]). exists p, e. now repeat split.
      + intros (p & e & (E & T) & <- & U & D). apply (in_get _ cspec); [exact NDf|]. apply in_flat_map. exists (visit_at p e). split; [apply V_in; eauto|].
        apply defaults1_in. split; [exact T|]. split; [exact D|]. now exists t.
  Qed.
  Lemma skip_iff k : (match dget chars_eqb (r_node rf) k with Some n => negb (has_tag "AR-PACKAGE" n) | None => false end) = true <-> no_package ns root k.
  Proof using OK.
    unfold no_package. split.
    - destruct (dget chars_eqb (r_node rf) k) as [n|] eqn:G; [|discriminate]. intros H. apply node_get in G. destruct G as (N & P). exists (fst n), (snd n).
      split; [exact N|]. split; [exact P|]. intros T. unfold Arxml.has_tag, n_tag, tagged in H. unfold is_tag in T. rewrite T in H.
      destruct (cspec ("{"%char :: ns ++ "}"%char :: txt "AR-PACKAGE") ("{"%char :: ns ++ "}"%char :: txt "AR-PACKAGE")); [discriminate|congruence].
    - intros (p & e & N & P & T). rewrite (proj2 (node_get k (p, e)) (conj N P)). unfold Arxml.has_tag, n_tag, tagged. unfold is_tag in T. cbn [snd].
      destruct (cspec (x_tag e) ("{"%char :: ns ++ "}"%char :: txt "AR-PACKAGE")); [contradiction|reflexivity].
  Qed.
  Definition usable (base : option chars) (k t : chars) : Prop := ~ no_package ns root k /\ registered ns root base k t.
  Lemma closest_some atoms base t : forall i, closest ns rf atoms base i = Some t <->
    exists j, (j < i)%nat /\ usable base (join_with slash (firstn (S j) atoms)) t /\
              forall j' t', (j < j' < i)%nat -> ~ usable base (join_with slash (firstn (S j') atoms)) t'.
  Proof using OK.
    induction i as [|i IH].
    - cbn. split; [discriminate|]. intros (j & L & _). lia.
    - cbn [closest]. set (k := join_with slash (firstn (S i) atoms)).
      assert (Later : closest ns rf atoms base i = Some t /\ (forall t', ~ usable base k t') <->
        (exists j, (j < S i)%nat /\ usable base (join_with slash (firstn (S j) atoms)) t /\
           forall j' t', (j < j' < S i)%nat -> ~ usable base (join_with slash (firstn (S j') atoms)) t') /\ (forall t', ~ usable base k t')).
      { split.
        - intros (C & N). split; [|exact N]. apply IH in C. destruct C as (j & L & U & F). exists j. split; [lia|]. split; [exact U|].
          intros j' t' R. destruct (Nat.eq_dec j' i) as [->|D]; [apply N|]. apply F. lia.
        - intros ((j & L & U & F) & N). split; [|exact N]. apply IH. assert (j <> i) by (intros ->; exact (N _ U)). exists j. split; [lia|]. split; [exact U|].
          intros j' t' R. apply F. lia. }
      destruct (match dget chars_eqb (r_node rf) k with Some n => negb (has_tag "AR-PACKAGE" n) | None => false end) eqn:SK.
      + apply skip_iff in SK. assert (N : forall t', ~ usable base k t') by (intros t' (A & _); contradiction). tauto.
      + assert (NP : ~ no_package ns root k) by (rewrite <- skip_iff, SK; discriminate).
        destruct (match base with None => dget chars_eqb (r_default rf) k | Some b => _ end) as [u|] eqn:B.
        * apply base_lookup in B. split.
          { intros [= <-]. exists i. split; [lia|]. split; [now split|]. intros j' t' R. lia. }
          { intros (j & L & (A & R) & F). destruct (Nat.eq_dec j i) as [->|D].
            - apply base_lookup in B, R. fold k in R. rewrite B in R. exact R.
            - exfalso. apply (F i u); [lia|]. now split. }
        * assert (N : forall t', ~ usable base k t') by (intros t' (_ & A); apply base_lookup in A; rewrite B in A; discriminate). tauto.
  Qed.
  Lemma starts_iff ref : starts_with_slash ref = true <-> exists r, ref = "/"%char :: r.
  Proof using. destruct ref as [|c r]; cbn; [split; [discriminate|intros (r & [=])]|]. rewrite Ascii.eqb_eq. split; [intros ->; now exists r|now intros (r' & [= -> _])]. Qed.
  (** What [closest] finds in the path of an element *)
  Lemma closest_applies full base t : closest ns rf (split_on slash full) base (List.length (split_on slash full)) = Some t <->
    exists k, applies ns root full base k t /\ forall k' t', applies ns root full base k' t' -> (List.length k' <= List.length k)%nat.
  Proof using OK.
    rewrite closest_some. split.
    - intros (j & L & (A & B) & F). exists (join_with slash (firstn (S j) (split_on slash full))). split.
      + split; [|now split]. apply cut_iff. now exists j.
      + intros k' t' (C & A' & B'). apply cut_iff in C. destruct C as (j' & L' & ->). destruct (Nat.lt_trichotomy j j') as [D|[->|D]]; [|lia|].
        * exfalso. apply (F j' t'); [lia|]. now split.
        * apply Nat.lt_le_incl, cut_mono. lia.
    - intros (k & (C & A & B) & F). apply cut_iff in C. destruct C as (j & L & ->). exists j. split; [exact L|]. split; [now split|].
      intros j' t' R (A' & B'). assert (H := F (join_with slash (firstn (S j') (split_on slash full))) t').
      assert (applies ns root full base (join_with slash (firstn (S j') (split_on slash full))) t') as X by (split; [apply cut_iff; exists j'; split; [lia|reflexivity]|now split]).
      specialize (H X). pose proof (cut_mono full j j'). lia.
  Qed.
  Lemma absolute_ok p e ref base a : elem_at root p = Some e -> ref <> [] ->
    (absolute_path ns rf (p, e) ref base = Ok a <-> stands_for ns root p ref base a).
  Proof using OK.
    intros E N. unfold absolute_path, resolve, stands_for. rewrite <- starts_iff. destruct ref as [|c r] eqn:R; [contradiction|]. rewrite <- R. clear N.
    destruct (starts_with_slash ref); [split; [intros [= <-]; left; now split|intros [(_ & ->)|(H & _)]; [reflexivity|now contradiction H]]|].
    rewrite (path_get p e E). cbn [bind]. split.
    - destruct (closest _ _ _ _ _) as [t|] eqn:C; [|discriminate]. intros [= <-]. right. split; [discriminate|]. apply closest_applies in C. destruct C as (k & A & F). exists k, t. exact (conj A (conj eq_refl F)).
    - intros [([=] & _)|(_ & k & t & A & -> & F)]. rewrite (proj2 (closest_applies (path_at ns root p) base t)); [reflexivity|]. now exists k.
  Qed.
  Lemma absolute_err p e ref base x : elem_at root p = Some e -> ref <> [] -> absolute_path ns rf (p, e) ref base = Err x -> x = ValueError.
  Proof using OK.
    intros E N. unfold absolute_path, resolve. destruct ref as [|c r] eqn:R; [contradiction|]. rewrite <- R. destruct (starts_with_slash ref); [discriminate|].
    rewrite (path_get p e E). cbn [bind]. destruct (closest _ _ _ _ _); congruence.
  Qed.
  Lemma look_up_iff a dest m : look_up ns rf a dest = Some m <-> leads_to ns root a dest m.
  Proof using OK.
    unfold look_up, leads_to. split.
    - destruct (dget chars_eqb (r_node rf) a) as [n|] eqn:G; [|discriminate]. apply node_get in G. destruct G as (A & B). destruct dest as [d|].
      + destruct (cspec (n_tag n) ("{"%char :: ns ++ "}"%char :: d)) as [T|]; [|discriminate]. intros [= <-]. now repeat split; try apply A.
      + intros [= <-]. now repeat split; try apply A.
    - intros (A & B & T). rewrite (proj2 (node_get a m) (conj A B)). destruct dest as [d|]; [|reflexivity]. unfold is_tag in T. unfold n_tag.
      destruct (cspec (x_tag (snd m)) ("{"%char :: ns ++ "}"%char :: d)); [reflexivity|contradiction].
  Qed.

  (** A reference resolves to exactly the element whose path is what the reference stands for; a relative reference
      stands for a path below the target of the closest applicable base. *)
  Theorem C69_resolves p e ref dest base m : elem_at root p = Some e -> ref <> [] ->
    (follow ns rf (p, e) ref dest base = Ok (Some m) <-> exists a, stands_for ns root p ref base a /\ leads_to ns root a dest m).
  Proof using OK.
    intros E N. unfold follow. split.
    - intros H. apply bind_ok in H. destruct H as (a & A & H). injection H as H. exists a. split; [now apply (absolute_ok p e ref base a E N)|]. now apply look_up_iff.
    - intros (a & A & L). apply (absolute_ok p e ref base a E N) in A. rewrite A. cbn. f_equal. now apply look_up_iff.
  Qed.
  (** Following a reference raises ValueError exactly if it is relative and no base applies, and nothing else. *)
  Theorem C69_unresolved p e ref dest base x : elem_at root p = Some e -> ref <> [] ->
    (follow ns rf (p, e) ref dest base = Err x <-> x = ValueError /\ ~ exists a, stands_for ns root p ref base a).
  Proof using OK.
    intros E N. unfold follow. split.
    - destruct (absolute_path ns rf (p, e) ref base) as [a|y] eqn:A; [discriminate|]. intros [= <-]. split; [exact (absolute_err _ _ _ _ _ E N A)|].
      intros (a & H). apply (absolute_ok p e ref base a E N) in H. congruence.
    - intros (-> & H). destruct (absolute_path ns rf (p, e) ref base) as [a|y] eqn:A.
      + exfalso. apply H. exists a. now apply (absolute_ok p e ref base a E N).
      + cbn. f_equal. exact (absolute_err _ _ _ _ _ E N A).
  Qed.

  (** *** Locations *)
  Definition plain (a : entry) : Prop := forall c, In c (firstn 2 (txt (snd a))) -> c <> "&"%char /\ c <> "*"%char.
  Lemma entry_marks (a : entry) : plain a -> marked "*" (write_entry a) = e_many a /\ atom_name (write_entry a) = e_name a.
  Proof using.
    destruct a as [[m r] t]. unfold plain, atom_name, marked, marks, e_name, e_many, write_entry. cbn [fst snd]. intros H.
    assert (Q : forall c, In c (firstn 2 (txt t)) -> Ascii.eqb "&" c = false /\ Ascii.eqb "*" c = false).
    { intros c I. destruct (H c I) as (A & B). split; apply Ascii.eqb_neq; congruence. }
    assert (X1 : Ascii.eqb "&" "*" = false) by reflexivity. assert (X2 : Ascii.eqb "*" "&" = false) by reflexivity.
    assert (X3 : Ascii.eqb "&" "&" = true) by reflexivity. assert (X4 : Ascii.eqb "*" "*" = true) by reflexivity.
    destruct t as [|c [|d t]].
    - destruct m, r; split; reflexivity.
    - destruct (Q c (or_introl eq_refl)) as (A & B). clear H Q.
      destruct m, r; cbn -[Ascii.eqb]; rewrite ?A, ?B, ?X1, ?X2, ?X3, ?X4; cbn -[Ascii.eqb]; rewrite ?A, ?B, ?X1, ?X2, ?X3, ?X4; split; reflexivity.
    - destruct (Q c (or_introl eq_refl)) as (A & B), (Q d (or_intror (or_introl eq_refl))) as (A' & B'). clear H Q.
      destruct m, r; cbn -[Ascii.eqb]; rewrite ?A, ?B, ?A', ?B', ?X1, ?X2, ?X3, ?X4; cbn -[Ascii.eqb]; rewrite ?A, ?B, ?A', ?B', ?X1, ?X2, ?X3, ?X4; split; reflexivity.
  Qed.
  Definition valid (n : node) : Prop := elem_at root (fst n) = Some (snd n).
  Lemma elem_app e p : forall q x, elem_at e p = Some x -> elem_at e (p ++ q) = elem_at x q.
  Proof using.
    revert e. induction p as [|i p IH]; intros e q x; cbn [elem_at app]; [now intros [= <-]|]. destruct (nth_error (x_kids e) i); [apply IH|discriminate].
  Qed.
  Lemma kid_valid n i c : valid n -> is_kid n i c -> valid c.
  Proof using. unfold valid. intros W (E & P). rewrite P, (elem_app root (fst n) [i] (snd n) W). cbn. now rewrite E. Qed.
  Lemma number_nth {T} (l : list T) : forall k i, nth_error (number_from k l) i = option_map (fun x => ((k + i)%nat, x)) (nth_error l i).
  Proof using.
    induction l as [|x l IH]; intros k [|i]; cbn; try reflexivity; [now rewrite Nat.add_0_r|]. rewrite IH, Nat.add_succ_r. reflexivity.
  Qed.
  Lemma kids_nth n i c : nth_error (n_kids n) i = Some c <-> is_kid n i c.
  Proof using.
    unfold n_kids, is_kid. rewrite nth_error_map, number_nth. destruct (nth_error (x_kids (snd n)) i) as [x|]; cbn.
    - split; [intros [= <-]; now split|]. intros ([= ->] & P). destruct c. cbn in *. now subst.
    - split; [discriminate|]. now intros ([=] & _).
  Qed.
  Lemma attr_iff e a o : dget chars_eqb (x_attrs e) (txt a) = o <-> attr_says e a o.
  Proof using.
    unfold attr_says. destruct o as [v|].
    - generalize (x_attrs e) as l. induction l as [|[k w] l IH]; cbn [dget].
      + split; [discriminate|]. intros ([|? ?] & r & [=] & _).
      + destruct (cspec k (txt a)) as [->|N].
        * split; [intros [= ->]; exists [], l; split; [reflexivity|intros []]|]. intros ([|y b] & r & E & NI); [now injection E as -> _|].
          exfalso. apply NI. injection E as <- _. now left.
        * rewrite IH. split.
          { intros (b & r & -> & NI). exists ((k, w) :: b), r. split; [reflexivity|]. intros [H|H]; contradiction. }
          { intros ([|y b] & r & E & NI); [injection E as E _ _; contradiction|]. injection E as <- ->. exists b, r. split; [reflexivity|]. intros H. apply NI. now right. }
    - apply (get_none _ cspec).
  Qed.
  Lemma attr_fun e a o o' : attr_says e a o -> attr_says e a o' -> o = o'.
  Proof using. rewrite <- !attr_iff. congruence. Qed.
  Lemma refers_iff n c m : valid n -> (follow ns rf n (n_text c) (n_attr c "DEST") (n_attr c "BASE") = Ok (Some m) <-> refers ns root n c m).
  Proof using OK.
    intros W. unfold refers, n_text, n_attr. destruct (x_text (snd c)) as [|ch r] eqn:T.
    - split; [discriminate|]. intros (d & b & a & _ & _ & N & _). contradiction.
    - rewrite <- T. assert (N : x_text (snd c) <> []) by (rewrite T; discriminate). destruct n as [p e]. rewrite (C69_resolves p e _ _ _ m W N). cbn [fst]. split.
      + intros (a & S & L). exists (dget chars_eqb (x_attrs (snd c)) (txt "DEST")), (dget chars_eqb (x_attrs (snd c)) (txt "BASE")), a.
        split; [now apply attr_iff|]. split; [now apply attr_iff|]. now split.
      + intros (d & b & a & D & B & _ & S & L). apply attr_iff in D, B. rewrite D, B. now exists a.
  Qed.
  Lemma refers_valid n c m : refers ns root n c m -> valid m.
  Proof using. intros (d & b & a & _ & _ & _ & _ & (E & _) & _). exact E. Qed.
  Lemma one_ok n name c l : valid n -> (one_child ns rf n name c = Ok l <->
    (is_tag ns name (snd c) /\ l = [c]) \/ (is_tag ns (name ++ txt "-REF") (snd c) /\ exists m, refers ns root n c m /\ l = [m]) \/
    (~ is_tag ns name (snd c) /\ ~ is_tag ns (name ++ txt "-REF") (snd c) /\ l = [])).
  Proof using OK.
    intros W. unfold one_child, is_tag, n_tag. setoid_rewrite <- (refers_iff n c _ W).
    destruct (cspec (x_tag (snd c)) ("{"%char :: ns ++ "}"%char :: name)) as [T|T].
    - split; [intros [= <-]; left; now split|]. intros [(_ & ->)|[(R & _)|(R & _)]]; [reflexivity| |contradiction].
      exfalso. rewrite T in R. injection R as R. apply app_inv_head in R. injection R as R. apply (f_equal (@List.length ascii)) in R. rewrite app_length in R. cbn in R. lia.
    - destruct (cspec (x_tag (snd c)) ("{"%char :: ns ++ "}"%char :: name ++ txt "-REF")) as [R|R].
      + split.
        * intros H. apply bind_ok in H. destruct H as (o & F & H). destruct o as [m|]; [|discriminate]. injection H as <-. right. left. split; [exact R|]. now exists m.
        * intros [(A & _)|[(_ & m & F & ->)|(_ & A & _)]]; [contradiction| |contradiction]. rewrite F. reflexivity.
      + split; [intros [= <-]; right; right; now repeat split|]. now intros [(A & _)|[(A & _)|(_ & _ & ->)]].
  Qed.
  Lemma one_err n name c x : valid n -> one_child ns rf n name c = Err x -> (x = ValueError \/ x = AttributeError) /\ is_tag ns (name ++ txt "-REF") (snd c) /\ forall m, ~ refers ns root n c m.
  Proof using OK.
    intros W H.
    unfold one_child in H. destruct (chars_eqb (n_tag c) _); [discriminate|]. unfold is_tag, n_tag in *.
    destruct (cspec (x_tag (snd c)) ("{"%char :: ns ++ "}"%char :: name ++ txt "-REF")) as [R|R]; [|discriminate].
    destruct (follow ns rf n (n_text c) (n_attr c "DEST") (n_attr c "BASE")) as [[m|]|y] eqn:F; [discriminate| |].
    - injection H as <-. split; [now left|]. split; [exact R|]. intros m M. apply (refers_iff n c m W) in M. congruence.
    - injection H as <-. split; [|split; [exact R|intros m M; apply (refers_iff n c m W) in M; congruence]].
      destruct (n_text c) as [|ch r] eqn:T; [injection F as <-; now right|]. rewrite <- T in F. left. destruct n as [p e].
      apply (C69_unresolved p e) in F; [apply F|exact W|rewrite T; discriminate].
  Qed.

  Lemma mapM_nth {T U} (f : T -> result U) l out : mapM f l = Ok out -> forall i, (forall y, nth_error out i = Some y -> exists x, nth_error l i = Some x /\ f x = Ok y) /\
    (forall x, nth_error l i = Some x -> exists y, nth_error out i = Some y /\ f x = Ok y).
  Proof using.
    revert out. induction l as [|a l IH]; intros out H.
    - injection H as <-. intros [|i]; split; intros ? [=].
    - cbn in H. apply bind_ok in H. destruct H as (b & F & H). apply bind_ok in H. destruct H as (bs & M & H). injection H as <-.
      intros [|i]; cbn [nth_error]; [|apply (IH bs M i)]. split; intros ? [= <-]; eauto.
  Qed.
  Lemma mapM_err {T U} (f : T -> result U) l x : mapM f l = Err x -> exists i a, nth_error l i = Some a /\ f a = Err x.
  Proof using.
    induction l as [|a l IH]; [discriminate|]. cbn. destruct (f a) as [b|y] eqn:F; cbn.
    - destruct (mapM f l) eqn:M; [discriminate|]. intros [= ->]. destruct (IH eq_refl) as (i & c & E & G). now exists (S i), c.
    - intros [= ->]. now exists 0%nat, a.
  Qed.
  Lemma concat_nth {T} (ll : list (list T)) m : In m (List.concat ll) <-> exists i l, nth_error ll i = Some l /\ In m l.
  Proof using.
    rewrite in_concat. split.
    - intros (l & I & M). apply In_nth_error in I. destruct I as (i & I). eauto.
    - intros (i & l & I & M). exists l. split; [exact (nth_error_In _ _ I)|exact M].
  Qed.
  Lemma two_nth {T} (ll : list (list T)) : (forall i l, nth_error ll i = Some l -> (List.length l <= 1)%nat) ->
    ((1 < List.length (List.concat ll))%nat <-> exists i j x y, i <> j /\ nth_error ll i = Some [x] /\ nth_error ll j = Some [y]).
  Proof using.
    intros L. induction ll as [|l ll IH].
    - cbn. split; [lia|]. intros ([|i] & j & x & y & _ & [=] & _).
    - assert (L' : forall i l, nth_error ll i = Some l -> (List.length l <= 1)%nat) by (intros i; exact (L (S i))). specialize (IH L').
      cbn [List.concat]. rewrite app_length. pose proof (L 0%nat l eq_refl) as L0. destruct l as [|x [|? ?]]; [| |cbn in L0; lia].
      + cbn [List.length Nat.add]. rewrite IH. split.
        * intros (i & j & x & y & N & A & B). exists (S i), (S j), x, y. now repeat split; try congruence.
        * intros ([|i] & [|j] & x & y & N & A & B); try discriminate. exists i, j, x, y. split; [congruence|now split].
      + cbn [List.length Nat.add]. split.
        * intros H. destruct (List.concat ll) as [|y c] eqn:C; [cbn in H; lia|].
          assert (I : In y (List.concat ll)) by (rewrite C; now left). apply concat_nth in I. destruct I as (j & l & J & I).
          pose proof (L' j l J). destruct l as [|z [|? ?]]; [destruct I| |cbn in *; lia]. exists 0%nat, (S j), x, z. now repeat split.
        * intros (i & j & u & w & N & A & B). assert (exists k v, nth_error ll k = Some [v]) as (k & v & K).
          { destruct i as [|i]; [destruct j as [|j]; [contradiction|eauto]|eauto]. }
          assert (In v (List.concat ll)) as I by (apply concat_nth; exists k, [v]; split; [exact K|now left]). destruct (List.concat ll); [destruct I|cbn; lia].
  Qed.

  Lemma level_ok a n l : plain a -> valid n -> level ns rf (write_entry a) n = Ok l -> (forall m, In m l <-> hop ns root n (e_name a) m) /\ ~ troubled ns root n a.
  Proof using OK.
    intros P W H. destruct (entry_marks a P) as (MA & NA). unfold level in H. rewrite MA, NA in H. apply bind_ok in H. destruct H as (ll & M & H).
    pose proof (mapM_nth _ _ _ M) as Z.
    assert (LL : forall i x, nth_error ll i = Some x -> (List.length x <= 1)%nat).
    { intros i x I. apply (Z i) in I. destruct I as (c & _ & O). apply (one_ok n (e_name a) c x W) in O. destruct O as [(_ & ->)|[(_ & m & _ & ->)|(_ & _ & ->)]]; cbn; lia. }
    assert (l = List.concat ll /\ (e_many a = false -> ~ (1 < List.length (List.concat ll))%nat)) as (-> & U).
    { destruct (negb (e_many a) && (1 <? zlen (List.concat ll))) eqn:T; [discriminate|]. injection H as <-. split; [reflexivity|]. intros F. rewrite F in T. cbn in T. unfold zlen in T. lia. }
    split.
    - intros m. rewrite concat_nth. unfold hop. split.
      + intros (i & x & I & X). apply (Z i) in I. destruct I as (c & K & O). apply kids_nth in K. apply (one_ok n (e_name a) c x W) in O.
        exists i, c. split; [exact K|]. destruct O as [(T & ->)|[(T & m' & R & ->)|(_ & _ & ->)]].
        * destruct X as [->|[]]. left. now split.
        * destruct X as [->|[]]. right. now split.
        * destruct X.
      + intros (i & c & K & D). apply kids_nth in K. apply (Z i) in K. destruct K as (x & I & O). exists i, x. split; [exact I|]. apply (one_ok n (e_name a) c x W) in O.
        destruct O as [(T & ->)|[(T & m' & R & ->)|(T1 & T2 & ->)]].
        * destruct D as [(_ & ->)|(T' & _)]; [now left|]. exfalso. unfold is_tag in T, T'. rewrite T in T'. injection T' as T'. apply app_inv_head in T'. injection T' as T'.
          apply (f_equal (@List.length ascii)) in T'. rewrite app_length in T'. cbn in T'. lia.
        * destruct D as [(T' & _)|(_ & R')].
          { exfalso. unfold is_tag in T, T'. rewrite T in T'. injection T' as T'. apply app_inv_head in T'. injection T' as T'. apply (f_equal (@List.length ascii)) in T'. rewrite app_length in T'. cbn in T'. lia. }
          apply (refers_iff n c m' W) in R. apply (refers_iff n c m W) in R'. left. congruence.
        * destruct D as [(T' & _)|(T' & _)]; contradiction.
    - intros [(i & c & K & T & N)|(F & i & j & D & (c & Kc & Tc) & (d & Kd & Td))].
      + apply kids_nth in K. apply (Z i) in K. destruct K as (x & I & O). apply (one_ok n (e_name a) c x W) in O. destruct O as [(T' & _)|[(_ & m & R & _)|(_ & T' & _)]].
        * unfold is_tag in T, T'. rewrite T in T'. injection T' as T'. apply app_inv_head in T'. injection T' as T'. apply (f_equal (@List.length ascii)) in T'. rewrite app_length in T'. cbn in T'. lia.
        * exact (N m R).
        * contradiction.
      + apply (U F). apply (two_nth ll LL). apply kids_nth in Kc, Kd. apply (Z i) in Kc. apply (Z j) in Kd. destruct Kc as (x & I & O), Kd as (y & J & O').
        apply (one_ok n (e_name a) c x W) in O. apply (one_ok n (e_name a) d y W) in O'.
        assert (exists x', x = [x']) as (x' & ->) by (destruct O as [(_ & ->)|[(_ & m & _ & ->)|(T1 & T2 & _)]]; [eauto|eauto|destruct Tc; contradiction]).
        assert (exists y', y = [y']) as (y' & ->) by (destruct O' as [(_ & ->)|[(_ & m & _ & ->)|(T1 & T2 & _)]]; [eauto|eauto|destruct Td; contradiction]).
        exists i, j, x', y'. now repeat split.
  Qed.
  Lemma level_err a n x : plain a -> valid n -> level ns rf (write_entry a) n = Err x -> (x = ValueError \/ x = AttributeError) /\ troubled ns root n a.
  Proof using OK.
    intros P W H. destruct (entry_marks a P) as (MA & NA). unfold level in H. rewrite MA, NA in H.
    destruct (mapM (one_child ns rf n (e_name a)) (n_kids n)) as [ll|y] eqn:M.
    - cbn [bind] in H. destruct (negb (e_many a) && (1 <? zlen (List.concat ll))) eqn:T; [|discriminate]. injection H as <-. split; [now left|]. right.
      apply andb_true_iff in T. destruct T as (T1 & T2). split; [now destruct (e_many a)|]. pose proof (mapM_nth _ _ _ M) as Z.
      assert (LL : forall i x, nth_error ll i = Some x -> (List.length x <= 1)%nat).
      { intros i x I. apply (Z i) in I. destruct I as (c & _ & O). apply (one_ok n (e_name a) c x W) in O. destruct O as [(_ & ->)|[(_ & m & _ & ->)|(_ & _ & ->)]]; cbn; lia. }
      assert (1 < List.length (List.concat ll))%nat as G by (unfold zlen in T2; lia). apply (two_nth ll LL) in G. destruct G as (i & j & u & w & N & I & J).
      exists i, j. split; [exact N|]. apply (Z i) in I. apply (Z j) in J. destruct I as (c & K & O), J as (d & K' & O'). apply kids_nth in K, K'.
      apply (one_ok n (e_name a) c _ W) in O. apply (one_ok n (e_name a) d _ W) in O'. split.
      + exists c. split; [exact K|]. destruct O as [(T & _)|[(T & _)|(_ & _ & [=])]]; [now left|now right].
      + exists d. split; [exact K'|]. destruct O' as [(T & _)|[(T & _)|(_ & _ & [=])]]; [now left|now right].
    - cbn [bind] in H. injection H as <-. apply mapM_err in M. destruct M as (i & c & K & E). apply kids_nth in K. apply (one_err n (e_name a) c y W) in E.
      destruct E as (X & T & N). split; [exact X|]. left. now exists i, c.
  Qed.
  Lemma hop_valid n name m : valid n -> hop ns root n name m -> valid m.
  Proof using. intros W (i & c & K & [(_ & ->)|(_ & R)]); [exact (kid_valid n i c W K)|exact (refers_valid n c m R)]. Qed.
  Definition clear_to (n : node) (loc : list entry) : Prop := forall l1 a l2 k, loc = l1 ++ a :: l2 -> chain ns root n l1 k -> ~ troubled ns root k a.
  Lemma children_of_ok loc : Forall plain loc -> forall bases l, Forall valid bases -> children_of ns rf bases (map write_entry loc) = Ok l ->
    (forall m, In m l <-> exists n, In n bases /\ chain ns root n loc m) /\ forall n, In n bases -> clear_to n loc.
  Proof using OK.
    induction 1 as [|a loc P _ IH]; intros bases l W H; cbn [map children_of] in H.
    - injection H as <-. split; [intros m; split; [intros I; now exists m|intros (n & I & ->); exact I]|]. intros n _ [|? ?] ? ? ? [=].
    - apply bind_ok in H. destruct H as (ll & M & H). pose proof (mapM_nth _ _ _ M) as Z. rewrite Forall_forall in W.
      assert (LV : forall n, In n bases -> exists l', level ns rf (write_entry a) n = Ok l' /\ (forall m, In m l' -> In m (List.concat ll))).
      { intros n I. apply In_nth_error in I. destruct I as (i & I). apply (Z i) in I. destruct I as (l' & J & E). exists l'. split; [exact E|]. intros m X. apply concat_nth. eauto. }
      assert (C : forall m, In m (List.concat ll) <-> exists n, In n bases /\ hop ns root n (e_name a) m).
      { intros m. split.
        - rewrite concat_nth. intros (i & l' & I & X). apply (Z i) in I. destruct I as (n & J & E). pose proof (nth_error_In _ _ J) as B. exists n. split; [exact B|]. now apply (level_ok a n l' P (W n B) E).
        - intros (n & B & X). destruct (LV n B) as (l' & E & S). apply S. now apply (level_ok a n l' P (W n B) E). }
      assert (W' : Forall valid (List.concat ll)).
      { apply Forall_forall. intros m X. apply C in X. destruct X as (n & B & X). exact (hop_valid n (e_name a) m (W n B) X). }
      destruct (IH (List.concat ll) l W' H) as (A & F). split.
      + intros m. rewrite A. cbn [chain]. split.
        * intros (k & K & X). apply C in K. destruct K as (n & B & K). exists n. split; [exact B|]. now exists k.
        * intros (n & B & k & K & X). exists k. split; [apply C; now exists n|exact X].
      + intros n B [|b l1] a' l2 k E X; cbn in E.
        * injection E as <- _. cbn in X. subst k. destruct (LV n B) as (l' & E & _). exact (proj2 (level_ok a n l' P (W n B) E)).
        * injection E as <- E. destruct X as (k' & K & X). apply (F k' (proj2 (C k') (ex_intro _ n (conj B K))) l1 a' l2 k E X).
  Qed.
  Lemma children_of_err loc : Forall plain loc -> forall bases x, Forall valid bases -> children_of ns rf bases (map write_entry loc) = Err x ->
    (x = ValueError \/ x = AttributeError) /\ exists n, In n bases /\ ~ clear_to n loc.
  Proof using OK.
    induction 1 as [|a loc P FP IH]; intros bases x W H; cbn [map children_of] in H; [discriminate|].
    destruct (mapM (level ns rf (write_entry a)) bases) as [ll|y] eqn:M.
    - cbn [bind] in H. pose proof (mapM_nth _ _ _ M) as Z. rewrite Forall_forall in W.
      assert (C : forall m, In m (List.concat ll) -> exists n, In n bases /\ hop ns root n (e_name a) m).
      { intros m. rewrite concat_nth. intros (i & l' & I & X). apply (Z i) in I. destruct I as (n & J & E). pose proof (nth_error_In _ _ J) as B. exists n. split; [exact B|]. now apply (level_ok a n l' P (W n B) E). }
      assert (W' : Forall valid (List.concat ll)).
      { apply Forall_forall. intros m X. apply C in X. destruct X as (n & B & X). exact (hop_valid n (e_name a) m (W n B) X). }
      destruct (IH _ x W' H) as (X & m & I & N). split; [exact X|]. destruct (C m I) as (n & B & K). exists n. split; [exact B|].
      intros CL. apply N. intros l1 a' l2 k E T. apply (CL (a :: l1) a' l2 k); [now rewrite E|]. now exists m.
    - cbn [bind] in H. injection H as <-. apply mapM_err in M. destruct M as (i & n & I & E). apply nth_error_In in I. rewrite Forall_forall in W.
      destruct (level_err a n y P (W n I) E) as (X & T). split; [exact X|]. exists n. split; [exact I|]. intros CL. exact (CL [] a loc n eq_refl eq_refl T).
  Qed.

  (** The elements found at a location are those that one reaches by going from element to child or along a reference,
      entry by entry.  A mark for references makes no difference. *)
  Theorem C69_locates n loc l : valid n -> Forall plain loc -> children ns rf n (map write_entry loc) = Ok l ->
    forall m, In m l <-> chain ns root n loc m.
  Proof using OK.
    intros W P H m. destruct (children_of_ok loc P [n] l (Forall_cons _ W (Forall_nil _)) H) as (A & _). rewrite A. split; [intros (k & [<-|[]] & X); exact X|intros X; exists n; split; [now left|exact X]].
  Qed.
  (** Looking at a location fails exactly if on the way there is a dangling reference, or two elements where there may
      be one; the exception is ValueError or AttributeError, never KeyError. *)
  Theorem C69_locate_fails n loc : valid n -> Forall plain loc ->
    ((exists l, children ns rf n (map write_entry loc) = Ok l) <-> clear_to n loc) /\
    (forall x, children ns rf n (map write_entry loc) = Err x -> x = ValueError \/ x = AttributeError).
  Proof using OK.
    intros W P. assert (W' : Forall valid [n]) by (constructor; [exact W|constructor]). split; [split|].
    - intros (l & H). destruct (children_of_ok loc P [n] l W' H) as (_ & F). apply F. now left.
    - intros C. destruct (children ns rf n (map write_entry loc)) as [l|x] eqn:H; [now exists l|]. destruct (children_of_err loc P [n] x W' H) as (_ & m & [<-|[]] & N). contradiction.
    - intros x H. exact (proj1 (children_of_err loc P [n] x W' H)).
  Qed.
  (** At most one element is found if no entry may stand for many. *)
  Theorem C69_unique n loc : valid n -> Forall plain loc -> Forall (fun a => e_many a = false) loc -> forall l, children ns rf n (map write_entry loc) = Ok l ->
    (List.length l <= 1)%nat.
  Proof using OK.
    intros W P. revert n W. unfold children. intros n W F.
    assert (G : forall loc, Forall (fun a => plain a /\ e_many a = false) loc -> forall bases l, (List.length bases <= 1)%nat -> children_of ns rf bases (map write_entry loc) = Ok l -> (List.length l <= 1)%nat).
    { clear. intros loc. induction 1 as [|a loc (P & M) _ IH]; intros bases l L H; cbn [map children_of] in H; [now injection H as <-|].
      apply bind_ok in H. destruct H as (ll & E & H). apply (IH (List.concat ll) l); [|exact H].
      destruct bases as [|b [|? ?]]; [injection E as <-; cbn; lia| |cbn in L; lia]. cbn in E. apply bind_ok in E. destruct E as (x & E & H'). injection H' as <-.
      unfold level in E. rewrite (proj1 (entry_marks a P)), M in E. apply bind_ok in E. destruct E as (y & _ & E). cbn [negb andb] in E.
      destruct (1 <? zlen (List.concat y)) eqn:T; [discriminate|]. injection E as <-. unfold zlen in T. cbn. rewrite app_nil_r. lia. }
    intros l. apply (G loc); [|cbn; lia]. rewrite Forall_forall in *. intros a I. split; [exact (P a I)|exact (F a I)].
  Qed.
End Proofs.

(** ** Concrete cases *)
Definition ex_ns : chars := txt "http://autosar.org/schema/r4.0".
Definition el (t : string) (a : list (string * string)) (x : string) (kids : list xml) : xml :=
  Elem ("{"%char :: ex_ns ++ "}"%char :: txt t) (map (fun p => (txt (fst p), txt (snd p))) a) (txt x) (map (fun k => (k, [])) kids).
Definition leaf (t x : string) : xml := el t [] x [].
Definition named_el (t name : string) (kids : list xml) : xml := el t [] "" (leaf "SHORT-NAME" name :: kids).
Definition ex_base (label default target : string) : xml :=
  el "REFERENCE-BASE" [] "" [leaf "SHORT-LABEL" label; leaf "IS-DEFAULT" default; leaf "PACKAGE-REF" target].
(** A package A with a default base that leads to /B and another one that leads to /B/C, and a signal in it that refers to
    two system signals; a reference below package B.C that is relative as well *)
Definition ex_signal (kids : list xml) : xml := named_el "I-SIGNAL" "S" kids.
Definition ex_refs : list xml :=
  [el "SYSTEM-SIGNAL-REF" [("DEST", "SYSTEM-SIGNAL")] "T" []; el "SYSTEM-SIGNAL-REF" [("BASE", "other")] "U" []].
Definition ex_arxml (bases kids : list xml) : xml :=
  el "AUTOSAR" [] "" [el "AR-PACKAGES" [] "" [
    named_el "AR-PACKAGE" "A" [el "REFERENCE-BASES" [] "" bases; el "ELEMENTS" [] "" [ex_signal kids]];
    named_el "AR-PACKAGE" "B" [el "ELEMENTS" [] "" [named_el "SYSTEM-SIGNAL" "T" []];
      el "AR-PACKAGES" [] "" [named_el "AR-PACKAGE" "C" [el "ELEMENTS" [] "" [named_el "SYSTEM-SIGNAL" "U" []]]]]]].
Definition ex_bases : list xml := [ex_base " main " " TRUE " "/B"; ex_base "other" "false" "/B/C"].
Definition ex_root : xml := ex_arxml ex_bases ex_refs.
Definition ex_rf : refs := match reference_dicts ex_ns ex_root with Ok r => r | Err _ => no_refs end.
Definition ex_sig : node := ([0; 0; 2; 0]%nat, ex_signal ex_refs).
Definition ex_t : node := ([0; 1; 1; 0]%nat, named_el "SYSTEM-SIGNAL" "T" []).
Definition ex_u : node := ([0; 1; 2; 0; 1; 0]%nat, named_el "SYSTEM-SIGNAL" "U" []).
Example C69_accepts_hypotheses : reference_dicts ex_ns ex_root = Ok ex_rf /\ acceptable ex_ns ex_root.
Proof. assert (H : reference_dicts ex_ns ex_root = Ok ex_rf) by (vm_compute; reflexivity). split; [exact H|]. apply C69_accepts. now exists ex_rf. Qed.
(** Two default bases of a package, a base without a label, and two elements of one path *)
Example C69_refused_hypotheses :
  reference_dicts ex_ns (ex_arxml [ex_base "a" "true" "/B"; ex_base "b" "True" "/B"] []) = Err ValueError /\
  reference_dicts ex_ns (ex_arxml [el "REFERENCE-BASE" [] "" [leaf "PACKAGE-REF" "/B"]] []) = Err AttributeError /\
  reference_dicts ex_ns (ex_arxml [] [named_el "X" "V" []; named_el "Y" "V" []]) = Err ValueError /\
  ~ acceptable ex_ns (ex_arxml [ex_base "a" "true" "/B"; ex_base "a" "" "/B"] []).
Proof.
  split; [vm_compute; reflexivity|]. split; [vm_compute; reflexivity|]. split; [vm_compute; reflexivity|].
  intros A. apply C69_accepts in A. destruct A as (r & A). vm_compute in A. discriminate.
Qed.
Lemma ex_valid : valid ex_root ex_sig /\ valid ex_root ex_t /\ valid ex_root ex_u.
Proof. repeat split; vm_compute; reflexivity. Qed.
Example C69_resolves_hypotheses :
  follow ex_ns ex_rf ex_sig (txt "T") (Some (txt "SYSTEM-SIGNAL")) None = Ok (Some ex_t) /\
  follow ex_ns ex_rf ex_sig (txt "U") None (Some (txt "other")) = Ok (Some ex_u) /\
  follow ex_ns ex_rf ex_sig (txt "/B/C/U") None None = Ok (Some ex_u) /\
  follow ex_ns ex_rf ex_sig (txt "T") (Some (txt "I-SIGNAL")) None = Ok None /\
  stands_for ex_ns ex_root (fst ex_sig) (txt "T") None (txt "/B/T").
Proof.
  assert (F : follow ex_ns ex_rf (fst ex_sig, snd ex_sig) (txt "T") (Some (txt "SYSTEM-SIGNAL")) None = Ok (Some ex_t)) by (vm_compute; reflexivity).
  split; [vm_compute; reflexivity|]. split; [vm_compute; reflexivity|]. split; [vm_compute; reflexivity|]. split; [vm_compute; reflexivity|].
  destruct (proj1 (C69_resolves ex_ns ex_root ex_rf (proj1 C69_accepts_hypotheses) (fst ex_sig) (snd ex_sig) (txt "T") (Some (txt "SYSTEM-SIGNAL")) None ex_t (proj1 ex_valid) ltac:(discriminate)) F) as (a & S & _ & P & _).
  assert (Q : path_at ex_ns ex_root (fst ex_t) = txt "/B/T") by (vm_compute; reflexivity). rewrite <- P, Q in S. exact S.
Qed.
(** A base that is not there; a relative reference in a package without a default base *)
Example C69_unresolved_hypotheses :
  follow ex_ns ex_rf ex_sig (txt "T") None (Some (txt "nowhere")) = Err ValueError /\ follow ex_ns ex_rf ex_u (txt "T") None None = Err ValueError /\
  ~ exists a, stands_for ex_ns ex_root (fst ex_u) (txt "T") None a.
Proof.
  assert (F : follow ex_ns ex_rf (fst ex_u, snd ex_u) (txt "T") None None = Err ValueError) by (vm_compute; reflexivity). split; [vm_compute; reflexivity|]. split; [vm_compute; reflexivity|].
  exact (proj2 (proj1 (C69_unresolved ex_ns ex_root ex_rf (proj1 C69_accepts_hypotheses) (fst ex_u) (snd ex_u) (txt "T") None None ValueError (proj2 (proj2 ex_valid)) ltac:(discriminate)) F)).
Qed.
Definition ex_loc : list entry := [(true, true, "SYSTEM-SIGNAL"); (false, false, "SHORT-NAME")].
Lemma ex_plain : Forall plain ex_loc.
Proof. unfold ex_loc, plain. repeat constructor; cbn in H; intuition (subst; discriminate). Qed.
Example C69_locates_hypotheses : valid ex_root ex_sig /\ Forall plain ex_loc /\ map write_entry ex_loc = ["*&SYSTEM-SIGNAL"; "SHORT-NAME"] /\
  children ex_ns ex_rf ex_sig (map write_entry ex_loc) = Ok [(fst ex_t ++ [0%nat], leaf "SHORT-NAME" "T"); (fst ex_u ++ [0%nat], leaf "SHORT-NAME" "U")] /\
  clear_to ex_ns ex_root ex_sig ex_loc /\
  children ex_ns ex_rf ex_sig ["&SYSTEM-SIGNAL"; "SHORT-NAME"] = Err ValueError /\
  children ex_ns ex_rf ex_sig ["*&SYSTEM-SIGNAL"; "UNIT"] = Ok [].
Proof.
  assert (C : children ex_ns ex_rf ex_sig (map write_entry ex_loc) = Ok [(fst ex_t ++ [0%nat], leaf "SHORT-NAME" "T"); (fst ex_u ++ [0%nat], leaf "SHORT-NAME" "U")]) by (vm_compute; reflexivity).
  split; [exact (proj1 ex_valid)|]. split; [exact ex_plain|]. split; [reflexivity|]. split; [exact C|]. split; [|split; vm_compute; reflexivity].
  apply (C69_locate_fails ex_ns ex_root ex_rf (proj1 C69_accepts_hypotheses) ex_sig ex_loc (proj1 ex_valid) ex_plain). eexists. exact C.
Qed.
Example C69_unique_hypotheses : Forall plain [(false, true, "SHORT-NAME")] /\ children ex_ns ex_rf ex_sig ["&SHORT-NAME"] = Ok [(fst ex_sig ++ [0%nat], leaf "SHORT-NAME" "S")].
Proof. split; [|vm_compute; reflexivity]. unfold plain. repeat constructor; cbn in H; intuition (subst; discriminate). Qed.
(** The mark & is documented to be needed for an entry that may be a reference; it is not: *)
Theorem C69_mark_refuted : children ex_ns ex_rf ex_sig ["*SYSTEM-SIGNAL"; "SHORT-NAME"] = children ex_ns ex_rf ex_sig ["*&SYSTEM-SIGNAL"; "SHORT-NAME"] /\
  (forall ns rf n (loc : list entry), Forall plain loc -> children ns rf n (map write_entry loc) = children ns rf n (map (fun a => write_entry (fst (fst a), false, snd a)) loc)).
Proof.
  split; [vm_compute; reflexivity|]. intros ns rf n loc P. unfold children. generalize [n] as l. induction P as [|a loc P _ IH]; intros l; [reflexivity|].
  cbn [map children_of]. assert (E : forall k, level ns rf (write_entry a) k = level ns rf (write_entry (fst (fst a), false, snd a)) k).
  { intros k. unfold level. destruct (entry_marks a P) as (-> & ->). destruct (entry_marks (fst (fst a), false, snd a) P) as (-> & ->). reflexivity. }
  assert (M : forall l, mapM (level ns rf (write_entry a)) l = mapM (level ns rf (write_entry (fst (fst a), false, snd a))) l).
  { induction l0 as [|x l0 IH']; [reflexivity|]. cbn. now rewrite E, IH'. }
  rewrite M. destruct (mapM (level ns rf (write_entry (fst (fst a), false, snd a))) l); [|reflexivity]. cbn [bind]. apply IH.
Qed.
