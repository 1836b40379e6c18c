(** KcdProofs: the database that is read from the KCD file that is written for a database. *)
From Coq Require Import Ascii Permutation.
From Verif Require Import Base CSource CNames DictLemmas Regex DecText DbcToken DbcLex DbcStmt DbcPieces DbcDump DbcLoad DbcTables DbcFit DbcWrite Logreader LogSpec LogProofs Xml XmlProofs Kcd.
Local Open Scope string_scope.
Local Open Scope Z_scope.
Local Open Scope list_scope.
Lemma cget_app {V} (d e : list (chars * V)) k : cget (d ++ e) k = match cget d k with Some v => Some v | None => cget e k end.
Proof. apply get_app. Qed.

(** ** What is kept *)
Section View.
Context {FL : Floats} {LW : FloatLaws FL}.
Implicit Types (s : dsignal) (m : dmessage) (db : database).

Definition view_comment (c : option chars) : option chars := match c with None | Some [] => None | Some t => Some (line_ends t) end.
Definition view_num (n : num) (z : Z) : num := if num_is n z then DInt z else n.
Definition view_choices (c : option (list (Z * chars))) : option (list (Z * chars)) := match c with Some [] => None | c => c end.
Definition view_signal s : dsignal :=
  DSignal (s_name s) (s_start s) (s_length s) (s_big s) (s_signed s && negb (s_float s)) None (view_num (s_scale s) 1) (view_num (s_offset s) 0)
    (s_float s) (view_choices (s_choices s)) (s_min s) (s_max s) (s_unit s) (view_comment (s_comment s)) (s_receivers s)
    (s_is_mux s) (s_mux_ids s) (s_mux_signal s) None [].

(** The order in the file: each multiplexer and its signals by count, then the other signals *)
Definition the_id s : Z := match s_mux_ids s with Some (i :: _) => i | _ => 0 end.
Definition the_counts (n : chars) (l : list dsignal) : list (Z * list dsignal) := by_count (map (fun s => (the_id s, s)) (filter (multiplexed_by n) l)).
Definition is_plain s : bool := negb (s_is_mux s) && match s_mux_ids s with None => true | Some _ => false end.
Definition with_group (l : list dsignal) s : list dsignal := s :: flat_map snd (the_counts (s_name s) l).
Definition file_order (l : list dsignal) : list dsignal := flat_map (with_group l) (filter s_is_mux l) ++ filter is_plain l.
Definition view_message (srt srt' : list dsignal -> list dsignal) m : dmessage :=
  DMessage (m_id m) (m_extended m) (m_name m) (m_length m) (m_senders m) None (m_cycle_time m) (view_comment (m_comment m))
    (srt' (map view_signal (file_order (srt (m_signals m))))) false false None [].

(** ** The databases that can be written and read back *)
Definition legal_opt (o : option chars) : bool := match o with Some t => forallb legal t | None => true end.
Definition num_opt (o : option num) : bool := match o with Some n => num_ok n | None => true end.
Definition known (nodes : list chars) (n : chars) : bool := existsb (chars_eqb n) nodes.
Definition kcd_signal (nodes : list chars) s : bool :=
  forallb legal (s_name s) && num_ok (s_scale s) && num_ok (s_offset s) && num_opt (s_min s) && num_opt (s_max s) && legal_opt (s_unit s) &&
  legal_opt (s_comment s) && forallb (known nodes) (s_receivers s) &&
  match s_choices s with Some l => forallb (fun p => forallb legal (snd p)) l && nodup_by Z.eqb (map fst l) | None => true end.
Definition mux_called (n : chars) s : bool := s_is_mux s && chars_eqb (s_name s) n.
(** There is one level of multiplexing, and a multiplexed signal has one count. *)
Definition kcd_mux (l : list dsignal) s : bool :=
  match s_is_mux s, s_mux_ids s, s_mux_signal s with
  | _, None, None => true
  | false, Some [_], Some n => existsb (mux_called n) l
  | _, _, _ => false
  end.
Definition kcd_message (nodes : list chars) m : bool :=
  (0 <=? m_id m) && forallb legal (m_name m) && legal_opt (m_comment m) && forallb (known nodes) (m_senders m) &&
  match m_cycle_time m with None | Some (AInt _) => true | _ => false end &&
  forallb (fun s => kcd_signal nodes s && kcd_mux (m_signals m) s) (m_signals m) && nodup_by chars_eqb (map s_name (filter s_is_mux (m_signals m))).
Definition kcd_fit db : bool :=
  forallb legal (the_version (db_version db)) && forallb (fun n => forallb legal (n_name n)) (db_nodes db) &&
  forallb (kcd_message (map n_name (db_nodes db))) (db_messages db).

(** ** Texts *)
Lemma digit_legal c : is_digit c = true -> legal c = true.
Proof. destruct c as [[] [] [] [] [] [] [] []]; vm_compute; congruence. Qed.
Lemma sign_legal c : is_sign c = true -> legal c = true.
Proof. destruct c as [[] [] [] [] [] [] [] []]; vm_compute; congruence. Qed.
Lemma exp_legal c : is_exp c = true -> legal c = true.
Proof. destruct c as [[] [] [] [] [] [] [] []]; vm_compute; congruence. Qed.
Lemma hex_legal c : hex_upper c = true -> legal c = true.
Proof. destruct c as [[] [] [] [] [] [] [] []]; vm_compute; congruence. Qed.
Lemma forallb_impl {A} (p q : A -> bool) l : (forall x, p x = true -> q x = true) -> forallb p l = true -> forallb q l = true.
Proof. intros H F. rewrite forallb_forall in *. auto. Qed.
Lemma number_legal t : number_token t = true -> forallb legal t = true.
Proof.
  unfold number_token. intros H. apply andb_true_iff in H. destruct H as [H E]. apply chars_eqb_eq in E. rewrite <- E. clear E.
  generalize dependent (number_split t). clear t. intros [sg i f e] H. unfold number_ok in H. cbn [n_sign n_int n_frac n_exp] in H.
  apply andb_true_iff in H. destruct H as [H HE]. apply andb_true_iff in H. destruct H as [H HF]. apply andb_true_iff in H. destruct H as [HS HI].
  unfold number_text. cbn [n_sign n_int n_frac n_exp].
  assert (SG : forall x, sign_text x = true -> forallb legal x = true).
  { intros [|c [|d x]]; cbn; intros X; [reflexivity| |discriminate]. now rewrite (sign_legal _ X). }
  assert (DG : forall x, digits_text x = true -> forallb legal x = true).
  { intros x X. apply digits_text_ok in X. destruct X as [_ X]. exact (forallb_impl _ _ _ digit_legal X). }
  rewrite !forallb_app, (SG _ HS), (DG _ HI). cbn [andb].
  replace (forallb legal (match f with Some f0 => "."%char :: f0 | None => [] end)) with true.
  2:{ destruct f as [f|]; [|reflexivity]. cbn [forallb]. rewrite (forallb_impl _ _ _ digit_legal HF). reflexivity. }
  destruct e as [[[e s] d]|]; [|reflexivity]. apply andb_true_iff in HE. destruct HE as [HE H3]. apply andb_true_iff in HE. destruct HE as [H1 H2].
  cbn [forallb andb]. rewrite forallb_app, (exp_legal _ H1), (SG _ H2), (DG _ H3). reflexivity.
Qed.
Lemma num_legal n : num_ok n = true -> forallb legal (num_text n) = true.
Proof. intros H. apply number_legal, num_token, H. Qed.
Lemma decimal_legal z : forallb legal (decimal z) = true. Proof. exact (num_legal (DInt z) eq_refl). Qed.

(** ** Frame ids *)
Lemma int_any_id id : 0 <= id -> int_any (id_text id) = Ok id.
Proof.
  intros H. unfold id_text. remember (Nat.max 3 (Z.to_nat (Z.log2 id / 4 + 1))) as w eqn:EW.
  assert (B : id < 16 ^ Z.of_nat w).
  { rewrite EW. rewrite Nat2Z.inj_max. pose proof (Z.log2_nonneg id) as LN. pose proof (Z.div_pos (Z.log2 id) 4 LN ltac:(lia)) as DN. rewrite Z2Nat.id by lia.
    destruct (Z.eq_dec id 0) as [->|NZ]; [apply Z.pow_pos_nonneg; lia|].
    apply Z.lt_le_trans with (16 ^ (Z.log2 id / 4 + 1)); [|apply Z.pow_le_mono_r; lia].
    destruct (Z.log2_spec id ltac:(lia)) as [_ U]. change 16 with (2 ^ 4). rewrite <- Z.pow_mul_r by lia.
    apply Z.lt_le_trans with (1 := U). apply Z.pow_le_mono_r; [lia|]. pose proof (Z.div_mod (Z.log2 id) 4 ltac:(lia)). pose proof (Z.mod_pos_bound (Z.log2 id) 4 ltac:(lia)). lia. }
  unfold int_any. change (after (txt "0x") (txt "0x" ++ hex_fixed w id)) with (Some (hex_fixed w id)). cbn iota.
  assert (L : List.length (hex_fixed w id) = w) by apply hex_fixed_length.
  destruct (hex_fixed w id) as [|c r] eqn:E; [exfalso; cbn in L; lia|]. rewrite <- E.
  rewrite (forallb_impl hex_upper hex_any); [|intros c0; destruct c0 as [[] [] [] [] [] [] [] []]; vm_compute; congruence|apply hex_fixed_upper].
  rewrite hex_int_fixed by lia. reflexivity.
Qed.
Lemma id_legal id : forallb legal (id_text id) = true.
Proof. unfold id_text. rewrite forallb_app. cbn [forallb txt list_ascii_of_string andb]. apply (forallb_impl hex_upper); [exact hex_legal|apply hex_fixed_upper]. Qed.

(** ** Elements *)
Definition T (level : nat) (e : xml) : xml := normal (indent level e).
Lemma T_tag n e : x_tag (T n e) = x_tag e. Proof. destruct e; reflexivity. Qed.
Lemma T_attrs n e : x_attrs (T n e) = x_attrs e. Proof. destruct e; reflexivity. Qed.
Lemma T_text n e : x_kids e = [] -> x_text (T n e) = line_ends (x_text e).
Proof. destruct e as [t a x k]. cbn. intros H. destruct k; [reflexivity|discriminate H]. Qed.
Lemma T_kids n e : x_kids (T n e) = map (T (S n)) (x_kids e).
Proof.
  destruct e as [t a x k]. unfold T. cbn [indent]. rewrite normal_eq. cbn [x_kids]. rewrite map_map. cbn [fst].
  induction k as [|[c tl] k IH]; [reflexivity|]. destruct k as [|p k]; [reflexivity|]. cbn [map fst snd] in *. now rewrite IH.
Qed.
Lemma T_has_tag n t e : has_tag t (T n e) = has_tag t e. Proof. unfold has_tag. now rewrite T_tag. Qed.
Lemma T_attr n e a : attr (T n e) a = attr e a. Proof. unfold attr. now rewrite T_attrs. Qed.
Lemma T_attr_exn n e a : attr_exn (T n e) a = attr_exn e a. Proof. unfold attr_exn. now rewrite T_attr. Qed.
Lemma T_iterfind n e t : iterfind (T n e) t = map (T (S n)) (iterfind e t).
Proof.
  unfold iterfind. rewrite T_kids. induction (x_kids e) as [|c k IH]; [reflexivity|]. cbn [map filter]. rewrite T_has_tag, IH. now destruct (has_tag t c).
Qed.
Lemma T_find n e t : find (T n e) t = option_map (T (S n)) (find e t).
Proof. unfold find. rewrite T_iterfind. now destruct (iterfind e t). Qed.
Lemma elem_kids t a k : x_kids (elem t a k) = k.
Proof. unfold elem. cbn [x_kids]. rewrite map_map. cbn [fst]. apply map_id. Qed.
Definition tagged (t : string) (l : list xml) : Prop := Forall (fun e => x_tag e = txt t) l.
Lemma filter_tagged t u l : tagged u l -> filter (has_tag t) l = if chars_eqb (txt u) (txt t) then l else [].
Proof.
  intros H. induction H as [|e l E _ IH]; [now destruct (chars_eqb _ _)|]. cbn [filter]. unfold has_tag at 1. rewrite E, IH. now destruct (chars_eqb _ _).
Qed.
Lemma tagged_map {A} t (f : A -> xml) l : (forall x, x_tag (f x) = txt t) -> tagged t (map f l).
Proof. intros H. apply Forall_forall. intros e I. apply in_map_iff in I. destruct I as (x & <- & _). apply H. Qed.

Lemma get_at n v k : cget (at_ n v) (txt k) = if chars_eqb (txt n) (txt k) then Some v else None. Proof. reflexivity. Qed.
Lemma get_at_if b n v k : cget (at_if b n v) (txt k) = if chars_eqb (txt n) (txt k) && b then Some v else None.
Proof. destruct b; [rewrite andb_true_r; reflexivity|rewrite andb_false_r; reflexivity]. Qed.
Lemma get_at_opt {A} n (o : option A) f k : cget (at_opt n o f) (txt k) = if chars_eqb (txt n) (txt k) then option_map f o else None.
Proof. destruct o; [reflexivity|]. now destruct (chars_eqb _ _). Qed.
End View.
Ltac literals := repeat match goal with |- context [chars_eqb (txt ?a) (txt ?b)] => let v := eval vm_compute in (chars_eqb (txt a) (txt b)) in change (chars_eqb (txt a) (txt b)) with v end; cbn iota; cbn [andb].

Section Read.
Context {FL : Floats} {LW : FloatLaws FL}.
Implicit Types (s : dsignal) (m : dmessage) (db : database).

(** ** Nodes *)
Lemma upd_in {V} (e : list (chars * V)) : forall d k v, cget (dupdate chars_eqb d e) k = Some v -> In (k, v) e \/ cget d k = Some v.
Proof.
  induction e as [|[k' v'] e IH]; intros d k v H; [right; exact H|]. cbn [dupdate fold_left] in H. apply IH in H. destruct H as [H|H]; [left; now right|].
  unfold cget in H. cbn [fst snd] in H. rewrite (get_set chars_eqb cspec) in H. destruct (cspec k' k) as [->|]; [|right; exact H]. left. left. congruence.
Qed.
Lemma number_ge nodes : forall k n i, In (n, i) (number k nodes) -> k <= i.
Proof. induction nodes as [|x nodes IH]; intros k n i H; [contradiction|]. destruct H as [H|H]; [injection H; lia|]. apply IH in H. lia. Qed.
Definition node_ids (l : node_refs) : list (chars * chars) := map (fun p => (decimal (snd p), fst p)) l.
Lemma node_name_number nodes : forall k n i, In (n, i) (number k nodes) -> node_name (node_ids (number k nodes)) (decimal i) = Ok n.
Proof.
  induction nodes as [|x nodes IH]; intros k n i H; [contradiction|]. cbn [number node_ids map node_name fst snd]. destruct H as [H|H].
  - injection H as <- <-. now rewrite chars_eqb_refl.
  - destruct (cspec (decimal k) (decimal i)) as [E|_]; [|now apply IH]. apply decimal_inj in E. apply number_ge in H. lia.
Qed.
Lemma number_names nodes : forall k, map fst (number k nodes) = map n_name nodes.
Proof. induction nodes as [|x nodes IH]; intros k; [reflexivity|]. cbn. now rewrite IH. Qed.

Context (nodes : list node).
Let refs : node_refs := dupdate chars_eqb [] (number 1 nodes).
Let ids : list (chars * chars) := node_ids (number 1 nodes).
Definition names : list chars := map n_name nodes.

Lemma known_ref n : known names n = true -> exists i, cget refs n = Some i /\ node_name ids (decimal i) = Ok n.
Proof.
  intros H. unfold known in H. apply existsb_exists in H. destruct H as (x & I & E). apply chars_eqb_eq in E. subst x.
  assert (K : In n (map fst refs)).
  { unfold refs. apply (upd_keys_in chars_eqb cspec). left. rewrite number_names. exact I. }
  apply (get_in_keys chars_eqb cspec) in K. destruct K as [i K]. exists i. split; [exact K|]. unfold ids.
  apply upd_in in K. destruct K as [K|K]; [|discriminate K]. now apply node_name_number.
Qed.

(** ** The elements *)
Definition the_ref (n : chars) : xml := elem "NodeRef" (at_ "id" (decimal (default 0 (cget refs n)))) [].
Definition the_refs (tag : string) (l : list chars) : list xml := match l with [] => [] | _ => [elem tag [] (map the_ref l)] end.
Definition the_kids s : list xml := notes (s_comment s) ++ the_refs "Consumer" (s_receivers s) ++ value_element s ++ label_set s.
Definition the_signal s : xml := elem "Signal" (signal_attrs s) (the_kids s).
Definition the_group (p : Z * list dsignal) : xml := elem "MuxGroup" (at_ "count" (decimal (fst p))) (map the_signal (snd p)).
Definition the_multiplex (l : list dsignal) s : xml := elem "Multiplex" (signal_attrs s) (the_kids s ++ map the_group (the_counts (s_name s) l)).
Definition the_place (l : list dsignal) s : list xml := if s_is_mux s then [the_multiplex l s] else if is_plain s then [the_signal s] else [].
Definition the_message (srt : list dsignal -> list dsignal) m : xml :=
  elem "Message" (message_attrs m) (notes (m_comment m) ++ the_refs "Producer" (m_senders m) ++ flat_map (the_place (srt (m_signals m))) (srt (m_signals m))).

Lemma ref_written n : known names n = true -> node_ref refs n = Ok (the_ref n).
Proof. intros H. destruct (known_ref n H) as (i & E & _). unfold node_ref, the_ref. now rewrite E. Qed.
Lemma refs_written tag l : forallb (known names) l = true -> refs_element tag refs l = Ok (the_refs tag l).
Proof.
  intros H. destruct l as [|n l]; [reflexivity|]. unfold refs_element, the_refs. rewrite (mapM_all _ the_ref); [reflexivity|].
  intros x I. rewrite forallb_forall in H. now apply ref_written, H.
Qed.
Lemma sig_receivers s : kcd_signal names s = true -> forallb (known names) (s_receivers s) = true.
Proof. unfold kcd_signal. intros H. apply andb_true_iff in H. destruct H as [H _]. apply andb_true_iff in H. apply H. Qed.
Lemma kids_written s : kcd_signal names s = true -> signal_kids refs s = Ok (the_kids s).
Proof. intros H. unfold signal_kids. rewrite refs_written by now apply sig_receivers. reflexivity. Qed.
Lemma signal_written s : kcd_signal names s = true -> signal_element refs s = Ok (the_signal s).
Proof. intros H. unfold signal_element. rewrite kids_written by exact H. reflexivity. Qed.

Lemma put_count_in d p i l x : In (i, l) (put_count d p) -> In x l -> x = snd p \/ exists l', In (i, l') d /\ In x l'.
Proof.
  unfold put_count. destruct p as [j y]. cbn [fst snd]. intros H I.
  assert (G : In (i, l) d \/ (i = j /\ l = match zget d j with Some l => l | None => [] end ++ [y])).
  { revert H. generalize (match zget d j with Some l => l | None => [] end ++ [y]) as v. clear. intros v. induction d as [|[k w] d IH]; cbn [dset].
    - intros [H|[]]. injection H as <- <-. auto.
    - destruct (Z.eqb_spec k j) as [->|N]; intros [H|H]; [injection H as <- <-; auto|left; right; exact H|left; left; exact H|].
      apply IH in H. destruct H as [H|H]; [left; right; exact H|right; exact H]. }
  destruct G as [G|[-> ->]]; [right; eauto|]. apply in_app_iff in I. destruct I as [I|[<-|[]]]; [|auto]. right.
  destruct (zget d j) as [l|] eqn:E; [|contradiction]. exists l. split; [|exact I]. apply (get_in Z.eqb zspec) in E. exact E.
Qed.
Lemma by_count_in l i g x : In (i, g) (by_count l) -> In x g -> In x (map snd l).
Proof.
  unfold by_count.
  assert (G : forall l d, In (i, g) (fold_left put_count l d) -> In x g -> In x (map snd l) \/ exists i g, In (i, g) d /\ In x g).
  { clear. intros l. revert i g. induction l as [|p l IH]; intros i g d H I; [right; eauto|]. cbn [fold_left] in H.
    destruct (IH _ _ _ H I) as [K|(i' & g' & K1 & K2)]; [left; now right|]. destruct (put_count_in _ _ _ _ _ K1 K2) as [->|(g'' & K3 & K4)]; [left; now left|right; eauto]. }
  intros H I. destruct (G l [] H I) as [K|(i' & g' & [] & _)]. exact K.
Qed.
(** The identifier of a group is that of its signals. *)
Lemma by_count_id l : (forall p, In p l -> fst p = the_id (snd p)) -> forall i g x, In (i, g) (by_count l) -> In x g -> the_id x = i.
Proof.
  unfold by_count. intros HL.
  assert (G : forall l d, (forall p, In p l -> fst p = the_id (snd p)) -> (forall i g x, In (i, g) d -> In x g -> the_id x = i) ->
              forall i g x, In (i, g) (fold_left put_count l d) -> In x g -> the_id x = i).
  { clear. intros l. induction l as [|p l IH]; intros d HL HD i g x H I; [eapply HD; eassumption|]. cbn [fold_left] in H. eapply IH; [| |exact H|exact I].
    - intros q Q. apply HL. now right.
    - clear - HD HL. intros i g x H I. unfold put_count in H. destruct p as [j y]. cbn [fst snd] in H.
      assert (K : In (i, g) d \/ (i = j /\ g = match zget d j with Some l => l | None => [] end ++ [y])).
      { revert H. generalize (match zget d j with Some l => l | None => [] end ++ [y]) as v. clear. intros v. induction d as [|[k w] d IH]; cbn [dset].
        - intros [H|[]]. injection H as <- <-. auto.
        - destruct (Z.eqb_spec k j) as [->|N]; intros [H|H]; [injection H as <- <-; auto|left; right; exact H|left; left; exact H|].
          apply IH in H. destruct H as [H|H]; [left; right; exact H|right; exact H]. }
      destruct K as [K|[-> ->]]; [eapply HD; eassumption|]. apply in_app_iff in I. destruct I as [I|[<-|[]]].
      + destruct (zget d j) as [l'|] eqn:E; [|contradiction]. apply (get_in Z.eqb zspec) in E. eapply HD; eassumption.
      + symmetry. apply (HL (j, y)). now left. }
  intros i g x. apply (G l []); [exact HL|]. intros ? ? ? [].
Qed.

(** The signals of a message *)
Definition fit_signals (l : list dsignal) : Prop :=
  (forall s, In s l -> kcd_signal names s = true /\ kcd_mux l s = true) /\ NoDup (map s_name (filter s_is_mux l)).

Lemma mux_cases l s : kcd_mux l s = true ->
  (s_mux_ids s = None /\ s_mux_signal s = None) \/
  (s_is_mux s = false /\ exists i n, s_mux_ids s = Some [i] /\ s_mux_signal s = Some n /\ exists p, In p l /\ s_is_mux p = true /\ s_name p = n).
Proof.
  unfold kcd_mux. intros H. destruct (s_is_mux s), (s_mux_ids s) as [[|i [|j k]]|], (s_mux_signal s) as [n|]; try discriminate H; auto.
  right. split; [reflexivity|]. exists i, n. repeat (split; [reflexivity|]). apply existsb_exists in H. destruct H as (p & I & H). exists p. split; [exact I|].
  unfold mux_called in H. apply andb_true_iff in H. destruct H as [H1 H2]. split; [exact H1|now apply chars_eqb_eq].
Qed.
Lemma multiplexed_true n s : multiplexed_by n s = true -> s_mux_signal s = Some n.
Proof. unfold multiplexed_by. destruct (s_mux_signal s); [|discriminate]. intros H. apply chars_eqb_eq in H. now subst. Qed.

Lemma counts_written l n : fit_signals l -> counts n l = Ok (the_counts n l).
Proof.
  intros [H _]. unfold counts, the_counts. rewrite (mapM_all _ (fun s => (the_id s, s))); [reflexivity|].
  intros s I. apply filter_In in I. destruct I as [I M]. apply multiplexed_true in M. destruct (H s I) as [_ K].
  destruct (mux_cases l s K) as [[_ E]|(_ & i & n' & E & _)]; [congruence|]. unfold first_id, the_id. now rewrite E.
Qed.
Lemma the_counts_in l n i g s : In (i, g) (the_counts n l) -> In s g -> In s l /\ multiplexed_by n s = true /\ the_id s = i.
Proof.
  intros H I. assert (K : In s (map snd (map (fun s => (the_id s, s)) (filter (multiplexed_by n) l)))) by (eapply by_count_in; eassumption).
  rewrite map_map in K. cbn [snd] in K. rewrite map_id in K. apply filter_In in K. split; [apply K|]. split; [apply K|].
  eapply by_count_id; [|exact H|exact I]. intros p P. apply in_map_iff in P. destruct P as (x & <- & _). reflexivity.
Qed.
Lemma group_written l p : fit_signals l -> (forall s, In s (snd p) -> In s l) -> mux_group refs p = Ok (the_group p).
Proof.
  intros [H _] I. unfold mux_group. rewrite (mapM_all _ the_signal); [reflexivity|]. intros s J. apply signal_written, H, I, J.
Qed.
Lemma place_written l s : fit_signals l -> In s l -> message_signal refs l s = Ok (the_place l s).
Proof.
  intros F I. destruct F as [H N]. destruct (H s I) as [K _]. unfold message_signal, the_place, is_plain. destruct (s_is_mux s).
  - unfold multiplex_element. rewrite kids_written by exact K. cbn [bind]. rewrite counts_written by (split; assumption). cbn [bind].
    rewrite (mapM_all _ the_group); [reflexivity|]. intros [i g] J. apply (group_written l); [split; assumption|].
    intros x X. cbn [snd] in X. eapply the_counts_in; eassumption.
  - cbn [negb andb]. destruct (s_mux_ids s); [reflexivity|]. rewrite signal_written by exact K. reflexivity.
Qed.

(** ** Reading the elements *)
Lemma refs_read n e tag l : forallb (known names) l = true -> iterfind e tag = the_refs tag l -> load_refs ids (T n e) tag = Ok l.
Proof.
  intros H E. unfold load_refs. rewrite T_find. unfold find. rewrite E. destruct l as [|x l]; [reflexivity|].
  cbn [the_refs option_map]. rewrite T_iterfind. unfold iterfind at 1. rewrite elem_kids, (filter_tagged _ "NodeRef") by now apply tagged_map. literals.
  rewrite map_map. remember (x :: l) as k eqn:EK. clear EK E x l.
  induction k as [|x k IH]; [reflexivity|]. cbn [forallb] in H. apply andb_true_iff in H. destruct H as [H1 H2]. cbn [map mapM].
  rewrite T_attr_exn. destruct (known_ref x H1) as (i & R & N).
  assert (A : attr_exn (the_ref x) "id" = Ok (decimal i)).
  { unfold the_ref, attr_exn, attr. cbn [elem x_attrs]. rewrite get_at, R. reflexivity. }
  rewrite A. cbn [bind]. rewrite N. cbn [bind]. rewrite IH by exact H2. reflexivity.
Qed.
Lemma notes_read n e c : iterfind e "Notes" = notes c -> load_notes (T n e) = view_comment c.
Proof.
  intros E. unfold load_notes. rewrite T_find. unfold find. rewrite E. destruct c as [t|]; [|reflexivity]. cbn [notes option_map].
  rewrite T_text by reflexivity. cbn [x_text view_comment]. destruct t as [|x t]; [reflexivity|].
  destruct (line_ends (x :: t)) eqn:L; [|reflexivity]. exfalso. cbn [line_ends] in L.
  destruct (Ascii.eqb x cr); [destruct t as [|y t]; [discriminate L|destruct (Ascii.eqb y lf); discriminate L]|discriminate L].
Qed.
Lemma labels_read n e s : kcd_signal names s = true -> iterfind e "LabelSet" = label_set s -> load_labels (T n e) = Ok (view_choices (s_choices s)).
Proof.
  intros K E. unfold load_labels. rewrite T_find. unfold find. rewrite E. unfold label_set. unfold kcd_signal in K. apply andb_true_iff in K. destruct K as [_ K].
  destruct (s_choices s) as [[|p l]|]; [reflexivity| |reflexivity]. cbn [option_map view_choices]. apply andb_true_iff in K. destruct K as [_ K].
  rewrite T_iterfind. unfold iterfind at 1. rewrite elem_kids, (filter_tagged _ "Label") by now apply tagged_map. literals.
  remember (p :: l) as k eqn:EK. clear EK p l E. rewrite map_map.
  assert (M : mapM (fun x => let* v := attr_exn x "value" in let* z := int_of v in let* n := attr_exn x "name" in Ok (z, n)) (map (fun x => T (S (S n)) (label x)) k) = Ok k).
  { clear K. induction k as [|[z x] k IH]; [reflexivity|]. cbn [map mapM]. rewrite !T_attr_exn.
    assert (A : attr_exn (label (z, x)) "value" = Ok (decimal z) /\ attr_exn (label (z, x)) "name" = Ok x) by (split; reflexivity).
    destruct A as [A1 A2]. rewrite A1, A2. cbn [bind]. rewrite int_of_decimal. cbn [bind]. rewrite IH. reflexivity. }
  rewrite M. cbn [bind]. do 2 f_equal. apply (upd_app Z.eqb zspec k []). cbn [app]. apply (nodup_by_spec Z.eqb zspec), K.
Qed.

Definition loaded s : dsignal :=
  DSignal (s_name s) (s_start s) (s_length s) (s_big s) (s_signed s && negb (s_float s)) None (view_num (s_scale s) 1) (view_num (s_offset s) 0)
    (s_float s) (view_choices (s_choices s)) (s_min s) (s_max s) (s_unit s) (view_comment (s_comment s)) (s_receivers s) false None None None [].
Lemma flip_flip z b : flip (flip z b) b = z.
Proof.
  unfold flip. destruct b; [|reflexivity]. pose proof (Z.div_mod z 8 ltac:(lia)). pose proof (Z.mod_pos_bound z 8 ltac:(lia)).
  replace (8 * (z / 8) + (7 - z mod 8)) with (7 - z mod 8 + z / 8 * 8) by ring. rewrite Z.div_add, Z.mod_add by lia.
  rewrite Z.div_small, Z.mod_small by lia. lia.
Qed.
Lemma nums_read (o : option num) : num_opt o = true -> opt_map read_num (option_map num_text o) = Ok o.
Proof. destruct o as [x|]; [|reflexivity]. cbn. intros H. rewrite read_num_text by exact H. reflexivity. Qed.
Lemma scale_read x z : num_ok x = true ->
  exists o, opt_map read_num (if negb (num_is x z) then Some (num_text x) else None) = Ok o /\ default (DInt z) o = view_num x z.
Proof.
  intros H. unfold view_num. destruct (num_is x z); cbn [negb opt_map]; [exists None; auto|]. rewrite read_num_text by exact H. exists (Some x). auto.
Qed.
Definition type_text s : option chars :=
  if s_float s then Some (txt (if s_length s =? 32 then "single" else "double")) else if s_signed s then Some (txt "signed") else None.
Lemma type_signed s : chars_eqb (default [] (type_text s)) (txt "signed") = s_signed s && negb (s_float s).
Proof. unfold type_text. destruct (s_float s); [destruct (s_length s =? 32); destruct (s_signed s); reflexivity|]. destruct (s_signed s); reflexivity. Qed.
Lemma type_float s : chars_eqb (default [] (type_text s)) (txt "single") || chars_eqb (default [] (type_text s)) (txt "double") = s_float s.
Proof. unfold type_text. destruct (s_float s); [destruct (s_length s =? 32); reflexivity|]. destruct (s_signed s); reflexivity. Qed.
Lemma value_read n e s : iterfind e "Value" = value_element s ->
  forall a, match find (T n e) "Value" with Some v => attr v | None => fun _ => None end a = cget (value_attrs s) (txt a).
Proof.
  intros E a. rewrite T_find. unfold find. rewrite E. unfold value_element. destruct (value_attrs s) as [|p l] eqn:V; [reflexivity|].
  cbn [option_map]. rewrite T_attr. reflexivity.
Qed.
Lemma get_type s a : cget (if s_float s then at_ "type" (txt (if s_length s =? 32 then "single" else "double")) else if s_signed s then at_ "type" (txt "signed") else []) (txt a) =
  if chars_eqb (txt "type") (txt a) then type_text s else None.
Proof. unfold type_text. destruct (s_float s); [reflexivity|]. destruct (s_signed s); [reflexivity|]. now destruct (chars_eqb _ _). Qed.

Lemma signal_read n e s : kcd_signal names s = true -> x_attrs e = signal_attrs s -> iterfind e "Notes" = notes (s_comment s) ->
  iterfind e "Consumer" = the_refs "Consumer" (s_receivers s) -> iterfind e "Value" = value_element s -> iterfind e "LabelSet" = label_set s ->
  load_signal ids (T n e) = Ok (loaded s).
Proof.
  intros K A N C V L. unfold load_signal. rewrite !T_attr_exn, !T_attr. unfold attr_exn. unfold attr at 1 2 3 4. rewrite A. unfold signal_attrs.
  rewrite !cget_app, !get_at, !get_at_if. literals. cbn [bind]. rewrite int_of_decimal. cbn [bind].
  set (value := match find (T n e) "Value" with Some v => attr v | None => fun _ => None end).
  pose proof (value_read n e s V) as HV. fold value in HV. rewrite !HV. clear HV value. unfold value_attrs.
  rewrite !cget_app, !get_at_opt, !get_at_if, !get_type. literals.
  pose proof K as K'. unfold kcd_signal in K'. repeat (apply andb_true_iff in K'; destruct K' as [K' ?]).
  assert (NN : forall o : option chars, match o with Some v => Some v | None => None end = o) by (intros [?|]; reflexivity).
  rewrite !NN.
  assert (LE : exists o, opt_map int_of (if negb (s_length s =? 1) then Some (decimal (s_length s)) else None) = Ok o /\ default 1 o = s_length s).
  { destruct (Z.eqb_spec (s_length s) 1) as [->|]; [exists None; auto|]. cbn [negb opt_map]. rewrite int_of_decimal. exists (Some (s_length s)). auto. }
  destruct LE as (o & LE & LD). rewrite LE. cbn [bind].
  assert (OE : load_order (if s_big s then Some (txt "big") else None) = Ok (s_big s)) by (destruct (s_big s); reflexivity).
  rewrite OE. cbn [bind].
  rewrite !nums_read by assumption. cbn [bind].
  destruct (scale_read (s_scale s) 1 ltac:(assumption)) as (o1 & E1 & D1). destruct (scale_read (s_offset s) 0 ltac:(assumption)) as (o2 & E2 & D2).
  rewrite E1. cbn [bind]. rewrite E2. cbn [bind].
  rewrite (labels_read n e s K L). cbn [bind]. rewrite (refs_read n e "Consumer" (s_receivers s)) by assumption. cbn [bind].
  rewrite (notes_read n e _ N), type_signed, type_float, LD, D1, D2, flip_flip.
  assert (U : option_map (fun u : chars => u) (s_unit s) = s_unit s) by (destruct (s_unit s); reflexivity). rewrite U. reflexivity.
Qed.

Lemma tagged_notes c : tagged "Notes" (notes c). Proof. destruct c; repeat constructor. Qed.
Lemma tagged_refs t l : tagged t (the_refs t l). Proof. destruct l; repeat constructor. Qed.
Lemma tagged_value s : tagged "Value" (value_element s). Proof. unfold value_element. destruct (value_attrs s); repeat constructor. Qed.
Lemma tagged_labels s : tagged "LabelSet" (label_set s). Proof. unfold label_set. destruct (s_choices s) as [[|p l]|]; repeat constructor. Qed.
Lemma tagged_groups l : tagged "MuxGroup" (map the_group l). Proof. apply tagged_map. reflexivity. Qed.
Lemma kids_filter t s k : filter (has_tag t) (the_kids s ++ k) =
  (if chars_eqb (txt "Notes") (txt t) then notes (s_comment s) else []) ++ (if chars_eqb (txt "Consumer") (txt t) then the_refs "Consumer" (s_receivers s) else []) ++
  (if chars_eqb (txt "Value") (txt t) then value_element s else []) ++ (if chars_eqb (txt "LabelSet") (txt t) then label_set s else []) ++ filter (has_tag t) k.
Proof.
  unfold the_kids. rewrite !filter_app, (filter_tagged _ _ _ (tagged_notes _)), (filter_tagged _ _ _ (tagged_refs _ _)), (filter_tagged _ _ _ (tagged_value _)), (filter_tagged _ _ _ (tagged_labels _)).
  now rewrite <- !app_assoc.
Qed.

Lemma the_signal_read n s : kcd_signal names s = true -> load_signal ids (T n (the_signal s)) = Ok (loaded s).
Proof.
  intros K. apply signal_read; [exact K|reflexivity|..]; unfold iterfind, the_signal; rewrite elem_kids, <- (app_nil_r (the_kids s)), kids_filter; literals; cbn [filter app];
    rewrite ?app_nil_r; reflexivity.
Qed.
Lemma the_multiplex_read n l s : kcd_signal names s = true -> load_signal ids (T n (the_multiplex l s)) = Ok (loaded s).
Proof.
  intros K. apply signal_read; [exact K|reflexivity|..]; unfold iterfind, the_multiplex; rewrite elem_kids, kids_filter, (filter_tagged _ _ _ (tagged_groups _)); literals; cbn [app];
    rewrite ?app_nil_r; reflexivity.
Qed.
Lemma the_multiplex_groups l s : iterfind (the_multiplex l s) "MuxGroup" = map the_group (the_counts (s_name s) l).
Proof. unfold iterfind, the_multiplex. rewrite elem_kids, kids_filter, (filter_tagged _ _ _ (tagged_groups _)). literals. reflexivity. Qed.

Lemma group_read n l p s : fit_signals l -> In p (the_counts (s_name s) l) ->
  load_group ids (s_name s) (T n (the_group p)) = Ok (map view_signal (snd p)).
Proof.
  intros [H _] I. unfold load_group. rewrite T_attr_exn. change (attr_exn (the_group p) "count") with (Ok (decimal (fst p))). cbn [bind].
  rewrite T_iterfind. unfold iterfind, the_group. rewrite elem_kids, (filter_tagged _ "Signal") by (apply tagged_map; reflexivity). literals.
  destruct p as [i g]. cbn [fst snd]. rewrite map_map.
  assert (G : forall x, In x g -> kcd_signal names x = true /\ as_muxed i (s_name s) (loaded x) = view_signal x).
  { intros x X. destruct (the_counts_in _ _ _ _ _ I X) as (XI & XM & XE). destruct (H x XI) as [K1 K2]. split; [exact K1|].
    apply multiplexed_true in XM. destruct (mux_cases l x K2) as [[_ E]|(M & j & n' & E1 & E2 & _)]; [congruence|].
    unfold the_id in XE. rewrite E1 in XE. subst j. unfold as_muxed, view_signal, loaded. cbn. rewrite M, E1. rewrite XM. reflexivity. }
  clear I. rewrite int_of_decimal. cbn [bind]. induction g as [|x g IH]; [reflexivity|]. cbn [map mapM]. destruct (G x (or_introl eq_refl)) as [K E].
  rewrite the_signal_read by exact K. cbn [bind]. rewrite E, IH; [reflexivity|]. intros y Y. apply G. now right.
Qed.
Lemma multiplex_read n l s : fit_signals l -> In s l -> s_is_mux s = true ->
  load_multiplex ids (T n (the_multiplex l s)) = Ok (map view_signal (with_group l s)).
Proof.
  intros F I M. pose proof F as [H _]. destruct (H s I) as [K1 K2]. unfold load_multiplex. rewrite the_multiplex_read by exact K1. cbn [bind].
  rewrite T_iterfind, the_multiplex_groups, map_map. change (s_name (loaded s)) with (s_name s).
  assert (G : mapM (load_group ids (s_name s)) (map (fun x => T (S n) (the_group x)) (the_counts (s_name s) l)) = Ok (map (fun p => map view_signal (snd p)) (the_counts (s_name s) l))).
  { assert (Q : forall p, In p (the_counts (s_name s) l) -> load_group ids (s_name s) (T (S n) (the_group p)) = Ok (map view_signal (snd p))).
    { intros p P. now apply (group_read _ l). }
    clear - Q. induction (the_counts (s_name s) l) as [|p c IH]; [reflexivity|]. cbn [map mapM]. rewrite Q by now left. cbn [bind].
    rewrite IH; [reflexivity|]. intros x X. apply Q. now right. }
  rewrite G. cbn [bind]. unfold with_group. cbn [map]. rewrite flat_map_concat_map, List.concat_map, map_map. f_equal. f_equal.
  destruct (mux_cases l s K2) as [[E1 E2]|(M' & _)]; [|congruence]. unfold as_mux, view_signal, loaded. cbn. rewrite M, E1, E2. reflexivity.
Qed.

Lemma place_filter l k t : filter (has_tag t) (flat_map (the_place l) k) =
  (if chars_eqb (txt "Multiplex") (txt t) then map (the_multiplex l) (filter s_is_mux k) else []) ++
  (if chars_eqb (txt "Signal") (txt t) then map the_signal (filter is_plain k) else []) \/ (chars_eqb (txt "Multiplex") (txt t) && chars_eqb (txt "Signal") (txt t) = true).
Proof.
  destruct (chars_eqb (txt "Multiplex") (txt t)) eqn:EM, (chars_eqb (txt "Signal") (txt t)) eqn:ES; cbn [andb]; [now right|left..].
  - rewrite app_nil_r. induction k as [|s k IH]; [reflexivity|]. cbn [flat_map]. rewrite filter_app, IH. unfold the_place at 1. cbn [filter].
    destruct (s_is_mux s); [|destruct (is_plain s)]; cbn [filter].
    + unfold has_tag at 1. change (x_tag (the_multiplex l s)) with (txt "Multiplex"). rewrite EM. reflexivity.
    + unfold has_tag at 1. change (x_tag (the_signal s)) with (txt "Signal"). rewrite ES. reflexivity.
    + reflexivity.
  - cbn [app]. induction k as [|s k IH]; [reflexivity|]. cbn [flat_map]. rewrite filter_app, IH. unfold the_place at 1. cbn [filter].
    destruct (s_is_mux s) eqn:M.
    + assert (P : is_plain s = false) by (unfold is_plain; now rewrite M). rewrite P. cbn [filter]. unfold has_tag at 1.
      change (x_tag (the_multiplex l s)) with (txt "Multiplex"). rewrite EM. reflexivity.
    + destruct (is_plain s); [|reflexivity]. cbn [filter]. unfold has_tag at 1. change (x_tag (the_signal s)) with (txt "Signal"). rewrite ES. reflexivity.
  - cbn [app]. induction k as [|s k IH]; [reflexivity|]. cbn [flat_map]. rewrite filter_app, IH, app_nil_r. unfold the_place.
    destruct (s_is_mux s); [|destruct (is_plain s)]; cbn [filter]; try reflexivity; unfold has_tag.
    + change (x_tag (the_multiplex l s)) with (txt "Multiplex"). now rewrite EM.
    + change (x_tag (the_signal s)) with (txt "Signal"). now rewrite ES.
Qed.

(** ** Messages *)
Lemma existsb_perm {A} (p : A -> bool) l l' : Permutation l l' -> existsb p l = existsb p l'.
Proof.
  intros P. destruct (existsb p l) eqn:E, (existsb p l') eqn:E'; try reflexivity; exfalso.
  - apply existsb_exists in E. destruct E as (x & I & H). assert (existsb p l' = true); [|congruence]. apply existsb_exists. exists x. split; [|exact H]. now apply (Permutation_in _ P).
  - apply existsb_exists in E'. destruct E' as (x & I & H). assert (existsb p l = true); [|congruence]. apply existsb_exists. exists x. split; [|exact H]. now apply (Permutation_in _ (Permutation_sym P)).
Qed.
Lemma filter_perm {A} (p : A -> bool) l l' : Permutation l l' -> Permutation (filter p l) (filter p l').
Proof.
  intros P. induction P as [|x l l' P IH|x y l|l l' l'' P1 IH1 P2 IH2]; cbn [filter]; [constructor|destruct (p x); [now constructor|exact IH]| |now transitivity (filter p l')].
  destruct (p x), (p y); try apply Permutation_refl. constructor.
Qed.
Lemma fit_perm l l' : Permutation l l' -> fit_signals l -> fit_signals l'.
Proof.
  intros P [H N]. split.
  - intros s I. apply (Permutation_in _ (Permutation_sym P)) in I. destruct (H s I) as [H1 H2]. split; [exact H1|]. revert H2. unfold kcd_mux.
    destruct (s_is_mux s), (s_mux_ids s) as [[|i [|j k]]|], (s_mux_signal s) as [n|]; try auto. now rewrite (existsb_perm _ _ _ P).
  - eapply Permutation_NoDup; [|exact N]. apply Permutation_map, filter_perm, P.
Qed.
Lemma message_fit m : kcd_message names m = true -> fit_signals (m_signals m).
Proof.
  unfold kcd_message. intros H. apply andb_true_iff in H. destruct H as [H N]. apply andb_true_iff in H. destruct H as [_ H].
  split; [|apply (nodup_by_spec chars_eqb cspec), N]. intros s I. rewrite forallb_forall in H. apply H in I. now apply andb_true_iff in I.
Qed.
Context (srt : list dsignal -> list dsignal) (HS : forall l, Permutation (srt l) l).
Lemma message_sorted m : kcd_message names m = true -> fit_signals (srt (m_signals m)).
Proof. intros H. eapply fit_perm; [apply Permutation_sym, HS|now apply message_fit]. Qed.
Lemma message_written m : kcd_message names m = true -> message_element srt refs m = Ok (the_message srt m).
Proof.
  intros H. pose proof (message_sorted m H) as F. unfold message_element. unfold kcd_message in H.
  apply andb_true_iff in H. destruct H as [H _]. apply andb_true_iff in H. destruct H as [H _]. apply andb_true_iff in H. destruct H as [H _].
  apply andb_true_iff in H. destruct H as [_ HP]. rewrite refs_written by exact HP. cbn [bind].
  rewrite (mapM_all _ (the_place (srt (m_signals m)))); [|intros s I; now apply place_written]. cbn [bind]. unfold the_message. now rewrite flat_map_concat_map.
Qed.
Lemma message_filter m t : chars_eqb (txt "Notes") (txt t) = false -> chars_eqb (txt "Producer") (txt t) = false ->
  iterfind (the_message srt m) t = filter (has_tag t) (flat_map (the_place (srt (m_signals m))) (srt (m_signals m))).
Proof.
  intros E1 E2. unfold iterfind, the_message. rewrite elem_kids, !filter_app, (filter_tagged _ _ _ (tagged_notes _)), (filter_tagged _ _ _ (tagged_refs _ _)), E1, E2. reflexivity.
Qed.
Lemma message_parts m : iterfind (the_message srt m) "Notes" = notes (m_comment m) /\ iterfind (the_message srt m) "Producer" = the_refs "Producer" (m_senders m) /\
  iterfind (the_message srt m) "Multiplex" = map (the_multiplex (srt (m_signals m))) (filter s_is_mux (srt (m_signals m))) /\
  iterfind (the_message srt m) "Signal" = map the_signal (filter is_plain (srt (m_signals m))).
Proof.
  split; [|split; [|split]].
  - unfold iterfind, the_message. rewrite elem_kids, !filter_app, (filter_tagged _ _ _ (tagged_notes _)), (filter_tagged _ _ _ (tagged_refs _ _)).
    destruct (place_filter (srt (m_signals m)) (srt (m_signals m)) "Notes") as [-> |E]; [|discriminate E]. literals. now rewrite !app_nil_r.
  - unfold iterfind, the_message. rewrite elem_kids, !filter_app, (filter_tagged _ _ _ (tagged_notes _)), (filter_tagged _ _ _ (tagged_refs _ _)).
    destruct (place_filter (srt (m_signals m)) (srt (m_signals m)) "Producer") as [-> |E]; [|discriminate E]. literals. cbn [app]. now rewrite !app_nil_r.
  - rewrite message_filter by reflexivity. destruct (place_filter (srt (m_signals m)) (srt (m_signals m)) "Multiplex") as [-> |E]; [|discriminate E]. literals. apply app_nil_r.
  - rewrite message_filter by reflexivity. destruct (place_filter (srt (m_signals m)) (srt (m_signals m)) "Signal") as [-> |E]; [|discriminate E]. literals. reflexivity.
Qed.
Lemma decimal_not_auto z : chars_eqb (decimal z) (txt "auto") = false.
Proof.
  destruct (cspec (decimal z) (txt "auto")) as [E|]; [|reflexivity]. pose proof (int_decimal z) as I. rewrite E in I. discriminate I.
Qed.
Lemma loaded_plain l s : kcd_mux l s = true -> is_plain s = true -> loaded s = view_signal s.
Proof.
  intros K P. unfold is_plain in P. apply andb_true_iff in P. destruct P as [P1 P2]. apply negb_true_iff in P1. unfold view_signal, loaded. rewrite P1.
  destruct (mux_cases l s K) as [[-> ->]|(_ & i & n & E & _)]; [reflexivity|]. rewrite E in P2. discriminate P2.
Qed.
Lemma message_read n srt' m : kcd_message names m = true -> load_message srt' ids (T n (the_message srt m)) = Ok (view_message srt srt' m).
Proof.
  intros H. pose proof (message_sorted m H) as F. destruct (message_parts m) as (P1 & P2 & P3 & P4). unfold kcd_message in H.
  apply andb_true_iff in H. destruct H as [H _]. apply andb_true_iff in H. destruct H as [H _]. apply andb_true_iff in H. destruct H as [H HC].
  apply andb_true_iff in H. destruct H as [H HP]. apply andb_true_iff in H. destruct H as [H _]. apply andb_true_iff in H. destruct H as [HI _].
  unfold load_message. rewrite !T_attr_exn, !T_attr. unfold attr_exn. unfold attr at 1 2 3 4 5.
  change (x_attrs (the_message srt m)) with (message_attrs m). unfold message_attrs. rewrite !cget_app, !get_at, !get_at_opt, !get_at_if. literals. cbn [bind].
  rewrite int_any_id by lia. cbn [bind].
  assert (CT : opt_map int_of (match option_map aval_text (m_cycle_time m) with Some v => Some v | None => None end) =
               Ok (match m_cycle_time m with Some (AInt z) => Some z | _ => None end)).
  { destruct (m_cycle_time m) as [[z|f|x]|]; try discriminate HC; [|reflexivity]. cbn. rewrite int_of_decimal. reflexivity. }
  rewrite CT. cbn [bind]. rewrite (refs_read n _ "Producer" (m_senders m) HP P2). cbn [bind]. rewrite !T_iterfind, P3, P4, !map_map.
  set (l := srt (m_signals m)) in *.
  assert (M1 : mapM (load_multiplex ids) (map (fun x => T (S n) (the_multiplex l x)) (filter s_is_mux l)) = Ok (map (fun s => map view_signal (with_group l s)) (filter s_is_mux l))).
  { assert (Q : forall s, In s (filter s_is_mux l) -> load_multiplex ids (T (S n) (the_multiplex l s)) = Ok (map view_signal (with_group l s))).
    { intros s I. apply filter_In in I. now apply multiplex_read. }
    clear - Q. induction (filter s_is_mux l) as [|s k IH]; [reflexivity|]. cbn [map mapM]. rewrite Q by now left. cbn [bind]. rewrite IH; [reflexivity|].
    intros x X. apply Q. now right. }
  assert (M2 : mapM (load_signal ids) (map (fun x => T (S n) (the_signal x)) (filter is_plain l)) = Ok (map view_signal (filter is_plain l))).
  { assert (Q : forall s, In s (filter is_plain l) -> load_signal ids (T (S n) (the_signal s)) = Ok (view_signal s)).
    { intros s I. apply filter_In in I. destruct I as [I P]. destruct F as [F _]. destruct (F s I) as [K1 K2]. rewrite the_signal_read by exact K1.
      now rewrite (loaded_plain l). }
    clear - Q. induction (filter is_plain l) as [|s k IH]; [reflexivity|]. cbn [map mapM]. rewrite Q by now left. cbn [bind]. rewrite IH; [reflexivity|].
    intros x X. apply Q. now right. }
  rewrite M1. cbn [bind]. rewrite M2. cbn [bind].
  assert (E : List.concat (map (fun s => map view_signal (with_group l s)) (filter s_is_mux l)) ++ map view_signal (filter is_plain l) = map view_signal (file_order l)).
  { unfold file_order. rewrite map_app. f_equal. rewrite flat_map_concat_map, List.concat_map, map_map. reflexivity. }
  rewrite E. unfold load_length. rewrite decimal_not_auto, int_of_decimal. cbn [bind]. unfold view_message. fold l.
  rewrite (notes_read n _ _ P1). f_equal. f_equal.
  - destruct (m_extended m); reflexivity.
  - destruct (m_cycle_time m) as [[z|f|x]|]; try discriminate HC; reflexivity.
Qed.

(** ** Documents *)
Lemma elem_writable t a k : name_ok (txt t) = true -> forallb attr_ok a = true -> forallb writable k = true -> writable (elem t a k) = true.
Proof.
  intros H1 H2 H3. unfold elem. rewrite writable_eq, H1, H2. cbn [forallb andb]. rewrite forallb_forall in *. intros p I. apply in_map_iff in I.
  destruct I as (e & <- & I). cbn [fst snd forallb]. rewrite andb_true_r. auto.
Qed.
Lemma at_ok n v : name_ok (txt n) = true -> forallb legal v = true -> forallb attr_ok (at_ n v) = true.
Proof. intros H1 H2. unfold at_, attr_ok. cbn [forallb fst snd]. now rewrite H1, H2. Qed.
Lemma at_if_ok b n v : name_ok (txt n) = true -> forallb legal v = true -> forallb attr_ok (at_if b n v) = true.
Proof. intros H1 H2. destruct b; [now apply at_ok|reflexivity]. Qed.
Lemma at_opt_ok {A} n (o : option A) f : name_ok (txt n) = true -> (forall x, o = Some x -> forallb legal (f x) = true) -> forallb attr_ok (at_opt n o f) = true.
Proof. intros H1 H2. destruct o as [x|]; [apply at_ok; [exact H1|now apply H2]|reflexivity]. Qed.
Lemma forallb_map' {A B} (f : A -> B) (p : B -> bool) l : (forall x, In x l -> p (f x) = true) -> forallb p (map f l) = true.
Proof. intros H. apply forallb_forall. intros y I. apply in_map_iff in I. destruct I as (x & <- & I). auto. Qed.

Lemma notes_writable c : legal_opt c = true -> forallb writable (notes c) = true.
Proof. destruct c as [t|]; [|reflexivity]. cbn [legal_opt notes forallb]. intros H. rewrite writable_eq, H. reflexivity. Qed.
Lemma refs_writable t l : name_ok (txt t) = true -> forallb writable (the_refs t l) = true.
Proof.
  intros H. destruct l as [|x l]; [reflexivity|]. cbn [the_refs forallb]. rewrite elem_writable; [reflexivity|exact H|reflexivity|].
  apply forallb_map'. intros y _. apply elem_writable; [reflexivity| |reflexivity]. apply at_ok; [reflexivity|apply decimal_legal].
Qed.
Lemma attrs_writable s : kcd_signal names s = true -> forallb attr_ok (signal_attrs s) = true.
Proof.
  unfold kcd_signal. intros K. repeat (apply andb_true_iff in K; destruct K as [K ?]). unfold signal_attrs. rewrite !forallb_app.
  rewrite !at_ok, !at_if_ok; try reflexivity; try apply decimal_legal. assumption.
Qed.
Lemma kids_writable s : kcd_signal names s = true -> forallb writable (the_kids s) = true.
Proof.
  unfold kcd_signal. intros K. repeat (apply andb_true_iff in K; destruct K as [K ?]). unfold the_kids. rewrite !forallb_app.
  rewrite notes_writable, refs_writable by (assumption || reflexivity). cbn [andb]. apply andb_true_iff. split.
  - unfold value_element. destruct (value_attrs s) as [|p l] eqn:V; [reflexivity|]. cbn [forallb]. rewrite elem_writable; [reflexivity|reflexivity| |reflexivity].
    rewrite <- V. unfold value_attrs. rewrite !forallb_app.
    rewrite !at_opt_ok, !at_if_ok; try reflexivity; try (now apply num_legal).
    + destruct (s_float s); [destruct (s_length s =? 32); reflexivity|]. destruct (s_signed s); reflexivity.
    + intros x E. rewrite E in *. assumption.
    + intros x E. rewrite E in *. now apply num_legal.
    + intros x E. rewrite E in *. now apply num_legal.
  - unfold label_set. destruct (s_choices s) as [[|p l]|]; [reflexivity| |reflexivity]. cbn [forallb]. rewrite elem_writable; [reflexivity|reflexivity|reflexivity|].
    apply forallb_map'. intros x I. match goal with H : _ && _ = true |- _ => apply andb_true_iff in H; destruct H as [H _]; rewrite forallb_forall in H; specialize (H x I) end.
    apply elem_writable; [reflexivity| |reflexivity]. rewrite forallb_app, !at_ok; try reflexivity; [apply decimal_legal|assumption].
Qed.
Lemma signal_writable s : kcd_signal names s = true -> writable (the_signal s) = true.
Proof. intros K. apply elem_writable; [reflexivity|now apply attrs_writable|now apply kids_writable]. Qed.
Lemma place_writable l : fit_signals l -> forallb writable (flat_map (the_place l) l) = true.
Proof.
  intros F. apply forallb_forall. intros e I. apply in_flat_map in I. destruct I as (s & I & J). pose proof F as [H _]. destruct (H s I) as [K _].
  unfold the_place in J. destruct (s_is_mux s); [|destruct (is_plain s); [|contradiction]].
  - destruct J as [<-|[]]. apply elem_writable; [reflexivity|now apply attrs_writable|]. rewrite forallb_app, kids_writable by exact K.
    apply forallb_map'. intros [i g] P. apply elem_writable; [reflexivity|apply at_ok; [reflexivity|apply decimal_legal]|].
    apply forallb_map'. intros x X. cbn [snd] in X. apply signal_writable. apply H. eapply the_counts_in; eassumption.
  - destruct J as [<-|[]]. now apply signal_writable.
Qed.
Lemma message_writable m : kcd_message names m = true -> writable (the_message srt m) = true.
Proof.
  intros H. pose proof (message_sorted m H) as F. unfold kcd_message in H.
  apply andb_true_iff in H. destruct H as [H _]. apply andb_true_iff in H. destruct H as [H _]. apply andb_true_iff in H. destruct H as [H HC].
  apply andb_true_iff in H. destruct H as [H HP]. apply andb_true_iff in H. destruct H as [H HN]. apply andb_true_iff in H. destruct H as [_ HL].
  apply elem_writable; [reflexivity| |].
  - unfold message_attrs. rewrite !forallb_app, !at_ok, at_opt_ok, at_if_ok; try reflexivity; try assumption; [|apply decimal_legal|apply id_legal].
    intros x E. rewrite E in HC. destruct x as [z|f|x]; try discriminate HC. apply decimal_legal.
  - rewrite !forallb_app, notes_writable, refs_writable by (assumption || reflexivity). now apply place_writable.
Qed.
Lemma indentation_legal n : forallb legal (indentation n) = true.
Proof. unfold indentation. cbn [forallb]. change (legal lf) with true. cbn [andb]. induction n as [|n IH]; [reflexivity|]. cbn [repeat List.concat]. rewrite forallb_app, IH. reflexivity. Qed.
Lemma fill_legal t u : forallb legal t = true -> forallb legal u = true -> forallb legal (fill t u) = true.
Proof. intros H1 H2. unfold fill. now destruct (forallb is_blank t). Qed.
Lemma indent_writable e : forall n, writable e = true -> writable (indent n e) = true.
Proof.
  induction e as [t a x k IH] using xml_forall. intros n W. rewrite writable_eq in W. cbn [indent]. rewrite writable_eq.
  apply andb_true_iff in W. destruct W as [W WK]. apply andb_true_iff in W. destruct W as [W WX]. rewrite W. cbn [andb].
  apply andb_true_iff. split; [destruct k; [exact WX|apply fill_legal; [exact WX|apply indentation_legal]]|]. clear W WX.
  induction IH as [|[c tl] k H _ IHk]; [reflexivity|]. cbn [forallb fst snd] in WK. apply andb_true_iff in WK. destruct WK as [W1 WK]. apply andb_true_iff in W1. destruct W1 as [W1 W2].
  specialize (IHk WK). cbn [fst] in H. destruct k as [|p k]; cbn [forallb fst snd] in *; rewrite H, fill_legal by (assumption || apply indentation_legal); [reflexivity|exact IHk].
Qed.
End Read.

(** ** The file that is written for a database is read as a view of the database. *)
Section File.
Context {FL : Floats} {LW : FloatLaws FL}.
Context (srt srt' : list dsignal -> list dsignal) (HS : forall l, Permutation (srt l) l).
Definition the_network (db : database) : xml :=
  elem "NetworkDefinition" root_attrs
    (elem "Document" (at_ "version" (the_version (db_version db))) [] :: map node_element (number 1 (db_nodes db)) ++
     [elem "Bus" (at_ "name" (txt "Bus")) (map (the_message (db_nodes db) srt) (db_messages db))]).
Definition view_database (db : database) : kcd :=
  Kcd (Some (the_version (db_version db))) (map n_name (db_nodes db)) [(txt "Bus", 500000)]
    (map (fun m => (txt "Bus", view_message srt srt' m)) (db_messages db)).

Lemma network_written db : kcd_fit db = true -> network srt db = Ok (the_network db).
Proof.
  unfold kcd_fit. intros H. apply andb_true_iff in H. destruct H as [_ H]. unfold network.
  rewrite (mapM_all _ (the_message (db_nodes db) srt)); [reflexivity|]. intros m I. rewrite forallb_forall in H. apply message_written; [exact HS|]. now apply H.
Qed.
Lemma network_writable db : kcd_fit db = true -> writable (the_network db) = true.
Proof.
  unfold kcd_fit. intros H. apply andb_true_iff in H. destruct H as [H HM]. apply andb_true_iff in H. destruct H as [HV HN].
  apply elem_writable; [reflexivity|reflexivity|]. cbn [forallb]. rewrite elem_writable; [|reflexivity|apply at_ok; [reflexivity|exact HV]|reflexivity]. cbn [andb].
  rewrite forallb_app. apply andb_true_iff. split.
  - apply forallb_map'. intros [n i] I. apply elem_writable; [reflexivity| |reflexivity]. rewrite forallb_app, !at_ok; try reflexivity; [|apply decimal_legal].
    cbn [fst]. assert (J : In n (map n_name (db_nodes db))). { rewrite <- (number_names (db_nodes db) 1). apply in_map_iff. exists (n, i). auto. }
    apply in_map_iff in J. destruct J as (x & <- & J). rewrite forallb_forall in HN. now apply HN.
  - cbn [forallb]. rewrite andb_true_r. apply elem_writable; [reflexivity|reflexivity|]. apply forallb_map'. intros m I. rewrite forallb_forall in HM.
    apply message_writable; [exact HS|]. now apply HM.
Qed.

Theorem load_dump db : kcd_fit db = true -> exists text, dump_string srt db = Ok text /\ load_string srt' text = Ok (view_database db).
Proof.
  intros F. unfold dump_string. rewrite (network_written db F). cbn [bind]. eexists. split; [reflexivity|].
  unfold load_string. rewrite read_write; [|apply indent_writable, network_writable, F|reflexivity].
  change (normal (indent 0 (the_network db))) with (T 0 (the_network db)). rewrite T_has_tag, T_attr.
  change (has_tag "NetworkDefinition" (the_network db)) with true.
  assert (X : option_eqb chars_eqb (attr (the_network db) "xmlns") (Some namespace) = true) by reflexivity. rewrite X. cbn [andb negb].
  assert (TN : tagged "Node" (map node_element (number 1 (db_nodes db)))) by (apply tagged_map; reflexivity).
  assert (IT : forall t, iterfind (the_network db) t =
     (if chars_eqb (txt "Document") (txt t) then [elem "Document" (at_ "version" (the_version (db_version db))) []] else []) ++
     (if chars_eqb (txt "Node") (txt t) then map node_element (number 1 (db_nodes db)) else []) ++
     (if chars_eqb (txt "Bus") (txt t) then [elem "Bus" (at_ "name" (txt "Bus")) (map (the_message (db_nodes db) srt) (db_messages db))] else [])).
  { intros t. unfold iterfind, the_network. rewrite elem_kids. cbn [filter]. rewrite filter_app, (filter_tagged _ _ _ TN). cbn [filter].
    unfold has_tag. cbn [elem x_tag]. destruct (chars_eqb (txt "Document") (txt t)); reflexivity. }
  rewrite T_find, !T_iterfind. unfold find. rewrite !IT. literals. cbn [app]. rewrite app_nil_r, map_map.
  assert (N : mapM (fun x => let* i := attr_exn x "id" in let* n := attr_exn x "name" in Ok (i, n)) (map (fun x => T 1 (node_element x)) (number 1 (db_nodes db))) =
              Ok (node_ids (number 1 (db_nodes db)))).
  { clear. induction (number 1 (db_nodes db)) as [|[n i] l IH]; [reflexivity|]. cbn [map mapM]. rewrite !T_attr_exn.
    change (attr_exn (node_element (n, i)) "id") with (Ok (decimal i)). change (attr_exn (node_element (n, i)) "name") with (Ok n). cbn [bind]. rewrite IH. reflexivity. }
  rewrite N. cbn [bind option_map map mapM]. rewrite T_attr.
  assert (B : load_bus srt' (node_ids (number 1 (db_nodes db))) (T 1 (elem "Bus" (at_ "name" (txt "Bus")) (map (the_message (db_nodes db) srt) (db_messages db)))) =
              Ok (txt "Bus", 500000, map (fun m => (txt "Bus", view_message srt srt' m)) (db_messages db))).
  { unfold load_bus. rewrite T_attr_exn, T_attr, T_iterfind. unfold iterfind. rewrite elem_kids, (filter_tagged _ "Message") by (apply tagged_map; reflexivity). literals.
    rewrite map_map. set (e := elem _ _ _). change (attr_exn e "name") with (Ok (txt "Bus")). change (attr e "baudrate") with (@None chars). cbn [bind opt_map].
    assert (M : mapM (load_message srt' (node_ids (number 1 (db_nodes db)))) (map (fun x => T 2 (the_message (db_nodes db) srt x)) (db_messages db)) = Ok (map (view_message srt srt') (db_messages db))).
    { unfold kcd_fit in F. apply andb_true_iff in F. destruct F as [_ F]. clear - F HS. induction (db_messages db) as [|m l IH]; [reflexivity|].
      cbn [forallb] in F. apply andb_true_iff in F. destruct F as [F1 F2]. cbn [map mapM]. rewrite message_read by (assumption || exact HS). cbn [bind].
      rewrite IH by exact F2. reflexivity. }
    rewrite M. cbn [bind default]. now rewrite map_map. }
  rewrite B. cbn [bind map flat_map fst snd]. rewrite app_nil_r. unfold view_database. do 2 f_equal.
  unfold node_ids. rewrite map_map. cbn [snd]. exact (number_names (db_nodes db) 1).
Qed.
End File.
