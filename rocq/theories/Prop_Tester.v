(** Prop_Tester: properties C35 and C36, the output side of the tester. *)
From Verif Require Import Base PyNum Conversion Signal Message Container Database Tester
     LayoutSpec DictLemmas NodeProofs CodecSpec Examples.

(** ** Histories *)

Inductive exec (ok : tester -> op -> Prop) : tester -> list op -> tester -> Prop :=
| ex_nil t : exec ok t [] t
| ex_cons t o os t' : ok t o -> exec ok (fst (step t o)) os t' -> exec ok t (o :: os) t'.

(** The calls of C35: a running tester is not started again, and a message that is enabled is not
    enabled again while the tester is running. *)
Definition no_restart (t : tester) (o : op) : Prop :=
  match o with
  | OStart => te_running t = false
  | OEnable n => te_running t = true -> forall m, sget (te_messages t) n = Some m -> tm_enabled m = false
  | _ => True
  end.

(** The running tasks that send message [n] *)
Definition sending (n : string) (t : tester) : list task :=
  filter (fun k => tk_running k && String.eqb (tk_owner k) n) (te_tasks t).

(** ** Lists *)

Lemma nth_set_nth {A} (f : A -> A) k l j :
  nth_error (set_nth k f l) j = if Nat.eqb j k then option_map f (nth_error l j) else nth_error l j.
Proof.
  unfold set_nth.
  assert (G : forall l a j, nth_error (map (fun ix => if Nat.eqb (fst ix) k then f (snd ix) else snd ix) (combine (seq a (List.length l)) l)) j =
     if Nat.eqb (a + j) k then option_map f (nth_error l j) else nth_error l j).
  { clear. induction l as [|x l IH]; intros a j; cbn [List.length seq combine map].
    - destruct j; cbn; destruct (Nat.eqb _ k); reflexivity.
    - destruct j as [|j]; cbn [nth_error fst snd].
      + rewrite Nat.add_0_r. cbn. destruct (Nat.eqb a k); reflexivity.
      + rewrite IH. replace (S a + j)%nat with (a + S j)%nat by lia. reflexivity. }
  rewrite G. reflexivity.
Qed.

Lemma filter_single {A} (p : A -> bool) l k x :
  (forall j y, nth_error l j = Some y -> p y = true -> j = k) -> nth_error l k = Some x -> p x = true ->
  filter p l = [x].
Proof.
  revert k. induction l as [|a l IH]; intros k U N P; [destruct k; discriminate|].
  destruct k as [|k]; cbn in N.
  - injection N as ->. cbn. rewrite P. f_equal.
    assert (G : forall y, In y l -> p y = false).
    { intros y Hy. apply In_nth_error in Hy. destruct Hy as [j Hj]. destruct (p y) eqn:E; [|reflexivity].
      specialize (U (S j) y Hj E). discriminate. }
    clear -G. induction l as [|b l IH]; [reflexivity|]. cbn. rewrite (G b) by now left. apply IH. intros; apply G; now right.
  - cbn. destruct (p a) eqn:E; [specialize (U O a eq_refl E); discriminate|].
    apply (IH k); auto. intros j y Hj Hy. specialize (U (S j) y Hj Hy). lia.
Qed.
Lemma filter_none {A} (p : A -> bool) l : (forall j y, nth_error l j = Some y -> p y = true -> False) -> filter p l = [].
Proof.
  intros U. assert (G : forall y, In y l -> p y = false).
  { intros y Hy. apply In_nth_error in Hy. destruct Hy as [j Hj]. destruct (p y) eqn:E; [|reflexivity]. exfalso. eauto. }
  clear U. induction l as [|b l IH]; [reflexivity|]. cbn. rewrite (G b) by now left. apply IH. intros; apply G; now right.
Qed.

(** ** The invariant *)

Definition with_task (m : tmsg) (k : option nat) : tmsg :=
  mkTmsg (tm_conf m) (tm_enabled m) (tm_data m) (tm_frame m) k.

Record inv (t : tester) : Prop := {
  inv_names : NoDup (map fst (te_messages t));
  inv_own : forall n m k, In (n, m) (te_messages t) -> tm_task m = Some k ->
    te_running t = true /\ tm_enabled m = true /\ tc_periodic (tm_conf m) = true /\
    nth_error (te_tasks t) k = Some (mkTask n (tm_frame m) true);
  inv_task : forall k tk, nth_error (te_tasks t) k = Some tk -> tk_running tk = true ->
    exists m, In (tk_owner tk, m) (te_messages t) /\ tm_task m = Some k;
  inv_on : te_running t = true -> forall n m, In (n, m) (te_messages t) -> tm_enabled m = true ->
    tc_periodic (tm_conf m) = true -> from_dut (te_dut t) (tm_conf m) = false -> tm_task m <> None
}.

Definition starts (dut : option string) (m : tmsg) : bool :=
  negb (from_dut dut (tm_conf m)) && tc_periodic (tm_conf m) && tm_enabled m.

Lemma start_all_spec dut ms : forall ts ms' ts', start_all dut ms ts = (ms', ts') ->
  (forall k, (k < List.length ts)%nat -> nth_error ts' k = nth_error ts k) /\ (List.length ts <= List.length ts')%nat /\
  map fst ms' = map fst ms /\
  (forall n m', In (n, m') ms' -> exists m, In (n, m) ms /\
     if starts dut m then exists k, m' = with_task m (Some k) /\ (List.length ts <= k)%nat /\
                                    nth_error ts' k = Some (mkTask n (tm_frame m) true)
     else m' = m) /\
  (forall k tk, (List.length ts <= k)%nat -> nth_error ts' k = Some tk ->
     exists m', In (tk_owner tk, m') ms' /\ tm_task m' = Some k).
Proof.
  induction ms as [|[n m] r IH]; intros ts ms' ts'; cbn [start_all].
  - intros [= <- <-]. split; [auto|]. split; [lia|]. split; [reflexivity|]. split; [intros ? ? []|].
    intros k tk Hk E. apply nth_error_None in Hk. congruence.
  - assert (P : (if from_dut dut (tm_conf m) || negb (tc_periodic (tm_conf m)) then (m, ts) else periodic_start n m ts) =
             if starts dut m then (with_task m (Some (List.length ts)), ts ++ [mkTask n (tm_frame m) true]) else (m, ts)).
    { unfold starts, periodic_start, with_task.
      destruct (from_dut dut (tm_conf m)), (tc_periodic (tm_conf m)), (tm_enabled m) eqn:E; cbn [negb andb orb]; reflexivity. }
    rewrite P. clear P. destruct (starts dut m) eqn:ST.
    + destruct (start_all dut r (ts ++ [mkTask n (tm_frame m) true])) as [r' ts''] eqn:E. intros [= <- <-].
      destruct (IH _ _ _ E) as (K & L & NM & MS & TK). rewrite app_length in K, L, MS, TK. cbn [List.length] in *.
      assert (K0 : nth_error ts'' (List.length ts) = Some (mkTask n (tm_frame m) true)).
      { rewrite K by lia. rewrite nth_error_app2, Nat.sub_diag by lia. reflexivity. }
      split; [|split; [lia|split; [cbn; now rewrite NM|split]]].
      * intros k Hk. rewrite K by lia. apply nth_error_app1. lia.
      * intros n' m' [[= <- <-]|HI].
        -- exists m. split; [now left|]. rewrite ST. eauto.
        -- destruct (MS _ _ HI) as (m0 & HI0 & S). exists m0. split; [now right|].
           destruct (starts dut m0); [|exact S]. destruct S as (k & -> & Hk & Ek). exists k. split; [reflexivity|]. split; [lia|exact Ek].
      * intros k tk Hk Ek. destruct (Nat.eq_dec k (List.length ts)) as [->|NE].
        -- rewrite K0 in Ek. injection Ek as <-. cbn [tk_owner]. exists (with_task m (Some (List.length ts))). split; [now left|reflexivity].
        -- destruct (TK k tk) as (m' & HI & Et); [lia|exact Ek|]. exists m'. split; [now right|exact Et].
    + destruct (start_all dut r ts) as [r' ts''] eqn:E. intros [= <- <-].
      destruct (IH _ _ _ E) as (K & L & NM & MS & TK).
      split; [exact K|split; [lia|split; [cbn; now rewrite NM|split]]].
      * intros n' m' [[= <- <-]|HI].
        -- exists m. split; [now left|]. rewrite ST. reflexivity.
        -- destruct (MS _ _ HI) as (m0 & HI0 & S). exists m0. split; [now right|exact S].
      * intros k tk Hk Ek. destruct (TK k tk Hk Ek) as (m' & HI & Et). exists m'. split; [now right|exact Et].
Qed.

Lemma stop_all_spec ms : forall ts ms' ts', stop_all ms ts = (ms', ts') ->
  map fst ms' = map fst ms /\
  (forall n m', In (n, m') ms' -> exists m, In (n, m) ms /\ m' = with_task m None) /\
  (forall k tk, nth_error ts' k = Some tk -> tk_running tk = true ->
     nth_error ts k = Some tk /\ forall n m, In (n, m) ms -> tm_task m <> Some k).
Proof.
  induction ms as [|[n m] r IH]; intros ts ms' ts'; cbn [stop_all].
  - intros [= <- <-]. split; [reflexivity|]. split; [intros ? ? []|]. intros k tk E R. split; [exact E|intros ? ? []].
  - destruct (periodic_stop m ts) as [m1 ts1] eqn:P. destruct (stop_all r ts1) as [r' ts2] eqn:E. intros [= <- <-].
    destruct (IH _ _ _ E) as (NM & MS & TK).
    assert (Em : m1 = with_task m None).
    { unfold periodic_stop in P. destruct (tm_task m) eqn:T; [injection P as <- _; reflexivity|].
      injection P as <- _. unfold with_task. rewrite <- T. destruct m; reflexivity. }
    split; [cbn; now rewrite NM|]. split.
    + intros n' m' [[= <- <-]|HI]; [exists m; split; [now left|exact Em]|].
      destruct (MS _ _ HI) as (m0 & H0 & ->). exists m0. split; [now right|reflexivity].
    + intros k tk Ek Rk. destruct (TK k tk Ek Rk) as [E1 N1].
      unfold periodic_stop in P. destruct (tm_task m) as [k0|] eqn:T.
      * injection P as _ <-. rewrite nth_set_nth in E1. destruct (Nat.eqb_spec k k0) as [->|NE].
        -- destruct (nth_error ts k0); [|discriminate]. cbn in E1. injection E1 as <-. discriminate.
        -- split; [exact E1|]. intros n' m' [[= <- <-]|HI]; [congruence|eauto].
      * injection P as _ <-. split; [exact E1|]. intros n' m' [[= <- <-]|HI]; [congruence|eauto].
Qed.

(** Replacing one message *)
Lemma set_in {V} (d : list (string * V)) n (v0 v : V) : NoDup (map fst d) -> sget d n = Some v0 ->
  map fst (sset d n v) = map fst d /\
  forall k w, In (k, w) (sset d n v) <-> (k = n /\ w = v) \/ (k <> n /\ In (k, w) d).
Proof.
  intros ND M. split.
  - apply (set_keys_old _ sspec). apply (get_in_keys _ sspec). eauto.
  - intros k w. assert (ND' : NoDup (map fst (sset d n v))) by now apply (set_nodup _ sspec).
    split.
    + intros HI. apply (in_get _ sspec) in HI; [|exact ND']. rewrite (get_set _ sspec) in HI.
      destruct (String.eqb_spec n k) as [->|NE].
      * injection HI as <-. auto.
      * right. split; [congruence|]. now apply (get_in _ sspec).
    + intros [[-> ->]|[NE HI]]; apply (get_in _ sspec); rewrite (get_set _ sspec).
      * now rewrite String.eqb_refl.
      * destruct (String.eqb_spec n k); [congruence|]. now apply (in_get _ sspec).
Qed.

(** Steps that replace one message and keep its task, changing the frames of message and task alike. *)
Lemma inv_update t n m m' ts :
  inv t -> sget (te_messages t) n = Some m ->
  tm_conf m' = tm_conf m -> tm_enabled m' = tm_enabled m -> tm_task m' = tm_task m ->
  (forall j, nth_error ts j = match tm_task m with
                              | Some k => if Nat.eqb j k then option_map (fun t => mkTask (tk_owner t) (tm_frame m') (tk_running t)) (nth_error (te_tasks t) j)
                                          else nth_error (te_tasks t) j
                              | None => nth_error (te_tasks t) j end) ->
  inv (with_msg t n m' ts).
Proof.
  intros [ND OW TK ON] G Ec Ee Et Hts. pose proof (get_in _ sspec _ _ _ G) as HIm.
  destruct (set_in _ _ _ m' ND G) as [KS SI]. split; cbn [with_msg te_messages te_running te_tasks te_dut].
  - now rewrite KS.
  - intros k' w k HI T. apply SI in HI. destruct HI as [[-> ->]|[NE HI]].
    + rewrite Et in T. destruct (OW _ _ _ HIm T) as (R & E & P & N). rewrite Ee, Ec. repeat split; auto.
      rewrite Hts, T, Nat.eqb_refl, N. reflexivity.
    + destruct (OW _ _ _ HI T) as (R & E & P & N). repeat split; auto. rewrite Hts.
      destruct (tm_task m) as [k0|] eqn:T0; [|exact N]. destruct (Nat.eqb_spec k k0) as [->|]; [|exact N].
      exfalso. destruct (OW _ _ _ HIm T0) as (_ & _ & _ & N0). congruence.
  - intros k tk Ek Rk. rewrite Hts in Ek.
    assert (OLD : exists tk0, nth_error (te_tasks t) k = Some tk0 /\ tk_running tk0 = true /\ tk_owner tk0 = tk_owner tk).
    { destruct (tm_task m) as [k0|]; [|eauto]. destruct (Nat.eqb k k0); [|eauto].
      destruct (nth_error (te_tasks t) k) as [tk0|]; [|discriminate]. cbn in Ek. injection Ek as <-. eauto. }
    destruct OLD as (tk0 & E0 & R0 & O0). destruct (TK _ _ E0 R0) as (w & HI & T). rewrite O0 in HI.
    destruct (string_dec (tk_owner tk) n) as [E|NE].
    + exists m'. split; [apply SI; left; auto|]. rewrite Et. rewrite E in HI.
      apply (in_get _ sspec) in HI; [|exact ND]. rewrite G in HI. injection HI as ->. exact T.
    + exists w. split; [apply SI; right; auto|exact T].
  - intros R k w HI E P D. apply SI in HI. destruct HI as [[-> ->]|[NE HI]].
    + rewrite Et. rewrite Ec, Ee in *. eapply ON; eauto.
    + eapply ON; eauto.
Qed.

Lemma update_can_spec m d ts m' ts' e : update_can_message m d ts = (m', ts', e) ->
  tm_conf m' = tm_conf m /\ tm_enabled m' = tm_enabled m /\ tm_task m' = tm_task m /\ tm_data m' = d /\
  match make_frame (tm_conf m) d with
  | Ok f => tm_frame m' = Some f /\ e = None /\
            ts' = match tm_task m with Some k => set_nth k (fun t => mkTask (tk_owner t) (Some f) (tk_running t)) ts | None => ts end
  | Err x => tm_frame m' = tm_frame m /\ ts' = ts /\ e = Some x
  end.
Proof.
  unfold update_can_message. destruct (make_frame (tm_conf m) d); intros [= <- <- <-]; cbn; auto 10.
Qed.

Lemma inv_same t n m m' : inv t -> sget (te_messages t) n = Some m ->
  tm_conf m' = tm_conf m -> tm_enabled m' = tm_enabled m -> tm_task m' = tm_task m -> tm_frame m' = tm_frame m ->
  inv (with_msg t n m' (te_tasks t)).
Proof.
  intros I G Ec Ee Et Ef. eapply inv_update; eauto. intros j. destruct (tm_task m) as [k|] eqn:T; [|reflexivity].
  destruct (Nat.eqb_spec j k) as [->|]; [|reflexivity].
  destruct I as [ND OW TK ON]. destruct (OW _ _ _ (get_in _ sspec _ _ _ G) T) as (_ & _ & _ & N).
  rewrite N, Ef. reflexivity.
Qed.

Lemma inv_update_can t n m d m' ts e : inv t -> sget (te_messages t) n = Some m ->
  update_can_message m d (te_tasks t) = (m', ts, e) -> inv (with_msg t n m' ts).
Proof.
  intros I G U. apply update_can_spec in U. destruct U as (Ec & Ee & Et & _ & M).
  destruct (make_frame (tm_conf m) d) as [f|x].
  - destruct M as (Ef & _ & ->). eapply inv_update; eauto. intros j. destruct (tm_task m) as [k|]; [|reflexivity].
    rewrite nth_set_nth, Ef. reflexivity.
  - destruct M as (Ef & -> & _). eapply inv_same; eauto.
Qed.

Lemma msg_update_spec m d ts m' ts' e : msg_update m d ts = (m', ts', e) ->
  (m' = m /\ ts' = ts /\ e = Some KeyError) \/ update_can_message m (supdate (tm_data m) d) ts = (m', ts', e).
Proof. unfold msg_update. destruct (forallb _ d); [auto|intros [= <- <- <-]; auto]. Qed.
Lemma msg_setitem_spec m k v ts m' ts' e : msg_setitem m k v ts = (m', ts', e) ->
  (m' = m /\ ts' = ts /\ e = Some KeyError) \/ update_can_message m (sset (tm_data m) k v) ts = (m', ts', e).
Proof. unfold msg_setitem. destruct (strmem k _); [auto|intros [= <- <- <-]; auto]. Qed.

Lemma step_inv t o : inv t -> no_restart t o -> inv (fst (step t o)).
Proof.
  intros I OK. pose proof I as [ND OW TK ON].
  destruct o as [| |n|n|n d|n d|n k v|n k|n d]; cbn [step].
  - (* start *)
    cbn [no_restart] in OK. destruct (start_all (te_dut t) (te_messages t) (te_tasks t)) as [ms ts] eqn:E. cbn [fst].
    destruct (start_all_spec _ _ _ _ _ E) as (K & L & NM & MS & TN).
    assert (NT : forall n m, In (n, m) (te_messages t) -> tm_task m = None).
    { intros n m HI. destruct (tm_task m) as [k|] eqn:T; [|reflexivity]. destruct (OW _ _ _ HI T); congruence. }
    split; cbn [te_messages te_running te_tasks te_dut].
    + now rewrite NM.
    + intros n m k HI T. destruct (MS _ _ HI) as (m0 & HI0 & S). specialize (NT _ _ HI0).
      destruct (starts (te_dut t) m0) eqn:ST; [|subst; congruence].
      destruct S as (k' & -> & _ & Ek). cbn in T. injection T as ->. unfold starts in ST.
      apply andb_true_iff in ST. destruct ST as [ST S3]. apply andb_true_iff in ST. destruct ST as [S1 S2]. auto.
    + intros k tk Ek Rk. destruct (Nat.lt_ge_cases k (List.length (te_tasks t))) as [Hk|Hk]; [|eauto].
      rewrite K in Ek by exact Hk. destruct (TK _ _ Ek Rk) as (m & HI & T). specialize (NT _ _ HI). congruence.
    + intros _ n m HI E1 E2 E3. destruct (MS _ _ HI) as (m0 & HI0 & S). destruct (starts (te_dut t) m0) eqn:ST.
      * destruct S as (k & -> & _). discriminate.
      * subst m. unfold starts in ST. rewrite E1, E2, E3 in ST. discriminate.
  - (* stop *)
    destruct (stop_all (te_messages t) (te_tasks t)) as [ms ts] eqn:E. cbn [fst].
    destruct (stop_all_spec _ _ _ _ E) as (NM & MS & TN). split; cbn [te_messages te_running te_tasks te_dut].
    + now rewrite NM.
    + intros n m k HI T. destruct (MS _ _ HI) as (m0 & _ & ->). discriminate.
    + intros k tk Ek Rk. destruct (TN _ _ Ek Rk) as [E0 N0]. destruct (TK _ _ E0 Rk) as (m & HI & T). exfalso. eapply N0; eauto.
    + discriminate.
  - (* enable *)
    destruct (sget (te_messages t) n) as [m|] eqn:G; [|exact I].
    pose proof (get_in _ sspec _ _ _ G) as HIm. cbn [no_restart] in OK.
    destruct (te_running t) eqn:R; cbn [andb].
    + specialize (OK eq_refl m G).
      assert (T0 : tm_task m = None). { destruct (tm_task m) as [k|] eqn:T; [|reflexivity]. destruct (OW _ _ _ HIm T) as (_ & E & _); congruence. }
      destruct (tc_periodic (tm_conf m)) eqn:P.
      * unfold periodic_start. cbn [tm_enabled set_enabled fst].
        set (m' := mkTmsg _ _ _ _ _). destruct (set_in _ _ _ m' ND G) as [KS SI].
        split; cbn [with_msg te_messages te_running te_tasks te_dut].
        -- now rewrite KS.
        -- intros k w j HI T. apply SI in HI. destruct HI as [[-> ->]|[NE HI]].
           ++ cbn in T. injection T as <-. repeat split; auto. rewrite nth_error_app2, Nat.sub_diag by lia. reflexivity.
           ++ destruct (OW _ _ _ HI T) as (Q1 & Q2 & Q3 & Q4). repeat split; auto.
              rewrite nth_error_app1; [exact Q4|]. apply nth_error_Some. congruence.
        -- intros j tk Ej Rj. destruct (Nat.lt_ge_cases j (List.length (te_tasks t))) as [Hj|Hj].
           ++ rewrite nth_error_app1 in Ej by exact Hj. destruct (TK _ _ Ej Rj) as (w & HI & T). exists w. split; [|exact T].
              apply SI. right. split; [|exact HI]. intros E. rewrite E in HI. apply (in_get _ sspec) in HI; [|exact ND].
              rewrite G in HI. injection HI as <-. congruence.
           ++ rewrite nth_error_app2 in Ej by exact Hj. destruct (j - List.length (te_tasks t))%nat as [|q] eqn:Q; cbn in Ej; [|destruct q; discriminate].
              injection Ej as <-. exists m'. split; [apply SI; left; auto|]. cbn. f_equal. lia.
        -- intros _ k w HI E1 E2 E3. apply SI in HI. destruct HI as [[-> ->]|[NE HI]]; [discriminate|]. eapply ON; eauto.
      * cbn [fst]. set (m' := set_enabled m true). destruct (set_in _ _ _ m' ND G) as [KS SI].
        split; cbn [with_msg te_messages te_running te_tasks te_dut].
        -- now rewrite KS.
        -- intros k w j HI T. apply SI in HI. destruct HI as [[-> ->]|[NE HI]]; [cbn in T; congruence|]. rewrite R. eauto.
        -- intros j tk Ej Rj. destruct (TK _ _ Ej Rj) as (w & HI & T). exists w. split; [|exact T].
           apply SI. right. split; [|exact HI]. intros E. rewrite E in HI. apply (in_get _ sspec) in HI; [|exact ND].
           rewrite G in HI. injection HI as <-. congruence.
        -- intros _ k w HI E1 E2 E3. apply SI in HI. destruct HI as [[-> ->]|[NE HI]]; [cbn in E2; congruence|]. eapply ON; eauto.
    + cbn [fst]. assert (T0 : tm_task m = None).
      { destruct (tm_task m) as [k|] eqn:T; [|reflexivity]. destruct (OW _ _ _ HIm T) as (E & _); congruence. }
      set (m' := set_enabled m true). destruct (set_in _ _ _ m' ND G) as [KS SI].
      split; cbn [with_msg te_messages te_running te_tasks te_dut].
      * now rewrite KS.
      * intros k w j HI T. apply SI in HI. destruct HI as [[-> ->]|[NE HI]]; [cbn in T; congruence|]. rewrite R. eauto.
      * intros j tk Ej Rj. destruct (TK _ _ Ej Rj) as (w & HI & T). destruct (OW _ _ _ HI T) as (E & _). congruence.
      * rewrite R. discriminate.
  - (* disable *)
    destruct (sget (te_messages t) n) as [m|] eqn:G; [|exact I].
    pose proof (get_in _ sspec _ _ _ G) as HIm.
    assert (H : exists m' ts, fst (let (m2, ts) := if te_running t && tc_periodic (tm_conf m) then periodic_stop (set_enabled m false) (te_tasks t)
                              else (set_enabled m false, te_tasks t) in (with_msg t n m2 ts, @None exn)) = with_msg t n m' ts /\
              tm_conf m' = tm_conf m /\ tm_enabled m' = false /\ tm_task m' = None /\
              (forall j tk, nth_error ts j = Some tk -> tk_running tk = true -> nth_error (te_tasks t) j = Some tk /\ tm_task m <> Some j) /\
              (forall j, tm_task m <> Some j -> nth_error ts j = nth_error (te_tasks t) j)).
    { destruct (te_running t && tc_periodic (tm_conf m)) eqn:RP.
      - unfold periodic_stop. cbn [tm_task set_enabled]. destruct (tm_task m) as [k|] eqn:T.
        + eexists _, _. split; [reflexivity|]. cbn. repeat split; auto.
          * rewrite nth_set_nth in H. destruct (Nat.eqb_spec j k); [|exact H].
            destruct (nth_error (te_tasks t) j); [|discriminate]. cbn in H. injection H as <-. discriminate.
          * intros [= ->]. rewrite nth_set_nth, Nat.eqb_refl in H. destruct (nth_error (te_tasks t) j); [|discriminate].
            cbn in H. injection H as <-. discriminate.
          * intros j NE. rewrite nth_set_nth. destruct (Nat.eqb_spec j k); [congruence|reflexivity].
        + eexists _, _. split; [reflexivity|]. cbn. repeat split; auto. congruence.
      - eexists _, _. split; [reflexivity|]. cbn.
        assert (T0 : tm_task m = None).
        { destruct (tm_task m) as [k|] eqn:T; [|reflexivity]. destruct (OW _ _ _ HIm T) as (E1 & _ & E2 & _). rewrite E1, E2 in RP. discriminate. }
        rewrite T0. repeat split; auto. congruence. }
    destruct H as (m' & ts & -> & Ec & Ee & Et & TS & TS2). destruct (set_in _ _ _ m' ND G) as [KS SI].
    split; cbn [with_msg te_messages te_running te_tasks te_dut].
    + now rewrite KS.
    + intros k w j HI T. apply SI in HI. destruct HI as [[-> ->]|[NE HI]]; [congruence|].
      destruct (OW _ _ _ HI T) as (Q1 & Q2 & Q3 & Q4). repeat split; auto. rewrite TS2; [exact Q4|].
      intros T'. destruct (OW _ _ _ HIm T') as (_ & _ & _ & Q5). congruence.
    + intros j tk Ej Rj. destruct (TS _ _ Ej Rj) as [E0 N0]. destruct (TK _ _ E0 Rj) as (w & HI & T). exists w. split; [|exact T].
      apply SI. right. split; [|exact HI]. intros E. rewrite E in HI. apply (in_get _ sspec) in HI; [|exact ND].
      rewrite G in HI. injection HI as <-. congruence.
    + intros R k w HI E1 E2 E3. apply SI in HI. destruct HI as [[-> ->]|[NE HI]]; [congruence|]. eapply ON; eauto.
  - (* send *)
    destruct (sget (te_messages t) n) as [m|] eqn:G; [|exact I].
    assert (SENT : forall t' s, inv t' -> inv (mkTester (te_dut t') (te_messages t') (te_running t') (te_tasks t') s)).
    { intros t' s [A B C D]. split; auto. }
    destruct d as [d|].
    + destruct (msg_update m d (te_tasks t)) as [[m1 ts] e] eqn:U.
      assert (I1 : inv (with_msg t n m1 ts)).
      { apply msg_update_spec in U. destruct U as [(-> & -> & _)|U]; [eapply inv_same; eauto|eapply inv_update_can; eauto]. }
      destruct e; cbn [fst]; [exact I1|]. apply (SENT _ _ I1).
    + cbn [fst]. apply SENT. eapply inv_same; eauto.
  - (* update *)
    destruct (sget (te_messages t) n) as [m|] eqn:G; [|exact I].
    destruct (msg_update m d (te_tasks t)) as [[m1 ts] e] eqn:U. cbn [fst].
    apply msg_update_spec in U. destruct U as [(-> & -> & _)|U]; [eapply inv_same; eauto|eapply inv_update_can; eauto].
  - (* setitem *)
    destruct (sget (te_messages t) n) as [m|] eqn:G; [|exact I].
    destruct (msg_setitem m k v (te_tasks t)) as [[m1 ts] e] eqn:U. cbn [fst].
    apply msg_setitem_spec in U. destruct U as [(-> & -> & _)|U]; [eapply inv_same; eauto|eapply inv_update_can; eauto].
  - (* delitem *)
    destruct (sget (te_messages t) n) as [m|] eqn:G; [|exact I].
    unfold msg_delitem. destruct (smem (tm_data m) k); cbn [fst]; eapply inv_same; eauto.
  - (* ior *)
    destruct (sget (te_messages t) n) as [m|] eqn:G; [|exact I]. cbn [fst]. eapply inv_same; eauto.
Qed.

Lemma exec_inv t os t' : exec no_restart t os t' -> inv t -> inv t'.
Proof. induction 1 as [t|t o os t' OK E IH]; intros I; [exact I|]. apply IH, step_inv; auto. Qed.

(** A new tester *)
Lemma new_tmsg_spec c m : new_tmsg c = Ok m ->
  tm_conf m = c /\ tm_enabled m = true /\ tm_task m = None /\ exists f, make_frame c (tm_data m) = Ok f /\ tm_frame m = Some f.
Proof.
  unfold new_tmsg. destruct (msg_update (mkTmsg c true [] None None) (initial_values c) []) as [[m' ts] e] eqn:U.
  destruct e; [discriminate|]. intros H. apply Ok_inj in H. subst m'.
  apply msg_update_spec in U. destruct U as [(_ & _ & [=])|U].
  apply update_can_spec in U. cbn in U. destruct U as (E1 & E2 & E3 & E4 & M).
  destruct (make_frame c (supdate [] (initial_values c))) as [f|x] eqn:MF; [|destruct M as (_ & _ & [=])].
  destruct M as (E5 & _ & _). rewrite E4. eauto 6.
Qed.

Lemma foldM_ok_inv {A S} (P : S -> Prop) (f : S -> A -> result S) l : forall s s', foldM f l s = Ok s' -> P s ->
  (forall s a s', In a l -> P s -> f s a = Ok s' -> P s') -> P s'.
Proof.
  induction l as [|a l IH]; intros s s' H Ps ST; cbn [foldM] in H.
  - apply Ok_inj in H. now subst.
  - apply bind_ok in H. destruct H as (s1 & H1 & H). apply (IH s1 s' H).
    + eapply ST; eauto. now left.
    + intros s2 a' s3 Ha. apply ST. now right.
Qed.

Definition fresh (m : tmsg) : Prop :=
  tm_enabled m = true /\ tm_task m = None /\ exists f, make_frame (tm_conf m) (tm_data m) = Ok f /\ tm_frame m = Some f.

Lemma new_tester_spec dut cs t : new_tester dut cs = Ok t ->
  te_dut t = dut /\ te_running t = false /\ te_tasks t = [] /\ te_sent t = [] /\ NoDup (map fst (te_messages t)) /\
  forall n m, In (n, m) (te_messages t) -> fresh m.
Proof.
  unfold new_tester. intros H. apply bind_ok in H. destruct H as (ms & H & E). apply Ok_inj in E. subst t. cbn.
  do 4 (split; [reflexivity|]). split.
  - apply (foldM_ok_inv (fun ms => NoDup (map fst ms)) _ _ _ _ H); [constructor|].
    intros s a s' _ ND E. apply bind_ok in E. destruct E as (m & _ & E). apply Ok_inj in E. subst s'. now apply (set_nodup _ sspec).
  - apply (foldM_ok_inv (fun ms => forall n m, In (n, m) ms -> fresh m) _ _ _ _ H); [intros ? ? []|].
    intros s a s' _ F E. apply bind_ok in E. destruct E as (m & Em & E). apply Ok_inj in E. subst s'.
    intros n' m' HI.
    assert (HI' : m' = m \/ In (n', m') s).
    { clear -HI. induction s as [|[x y] s IH]; cbn in HI.
      - destruct HI as [[= _ <-]|[]]. now left.
      - destruct (String.eqb x (m_name (tc_msg a))); cbn in HI.
        + destruct HI as [[= _ <-]|HI]; [now left|]. right. now right.
        + destruct HI as [[= <- <-]|HI]; [right; now left|]. destruct (IH HI); [now left|right; now right]. }
    destruct HI' as [->|HI']; [|eauto]. destruct (new_tmsg_spec _ _ Em) as (E1 & E2 & E3 & f & E4 & E5). subst a.
    split; [exact E2|]. split; [exact E3|]. eauto.
Qed.

Lemma new_inv dut cs t : new_tester dut cs = Ok t -> inv t.
Proof.
  intros H. destruct (new_tester_spec _ _ _ H) as (_ & R & T & _ & ND & F). split.
  - exact ND.
  - intros n m k HI E. destruct (F _ _ HI) as (_ & E' & _). congruence.
  - rewrite T. intros [|k] tk E; discriminate.
  - rewrite R. discriminate.
Qed.

(** ** C35 *)

(** After stop() no periodic task is running, whatever was called before. *)
Theorem C35_stop dut cs t os t' :
  new_tester dut cs = Ok t -> exec no_restart t os t' ->
  forall k, In k (te_tasks (fst (step t' OStop))) -> tk_running k = false.
Proof.
  intros H E. apply new_inv in H. apply exec_inv in E; auto. apply (step_inv t' OStop) in E; [|exact I].
  destruct E as [ND OW TK ON]. intros k Hk. apply In_nth_error in Hk. destruct Hk as [j Hj].
  destruct (tk_running k) eqn:R; [|reflexivity]. exfalso.
  destruct (TK _ _ Hj R) as (m & HI & T). destruct (OW _ _ _ HI T) as (RU & _).
  cbn [step] in RU. destruct (stop_all _ _); discriminate.
Qed.

(** While the tester is running, every enabled periodic message that is not sent by the device under test
    is sent by exactly one task, with the message's current frame; disabled and not periodic messages
    are not sent; while the tester is not running nothing is sent. *)
Theorem C35_periodic dut cs t os t' :
  new_tester dut cs = Ok t -> exec no_restart t os t' ->
  forall n m, sget (te_messages t') n = Some m ->
    if te_running t' then
      if tm_enabled m && tc_periodic (tm_conf m)
      then sending n t' = [mkTask n (tm_frame m) true] \/ (from_dut dut (tm_conf m) = true /\ sending n t' = [])
      else sending n t' = []
    else sending n t' = [].
Proof.
  intros H E n m G. pose proof (new_tester_spec _ _ _ H) as (ED & _).
  assert (DUT : te_dut t' = dut).
  { rewrite <- ED. clear -E. induction E as [t|t o os t' OK E IH]; [reflexivity|]. rewrite IH. clear.
    destruct o; cbn [step]; repeat (match goal with |- context [match ?x with _ => _ end] => destruct x end); reflexivity. }
  apply new_inv in H. apply exec_inv in E; auto. destruct E as [ND OW TK ON].
  pose proof (get_in _ sspec _ _ _ G) as HI.
  assert (NOT : tm_task m = None -> sending n t' = []).
  { intros T. apply filter_none. intros j y Hj P. apply andb_true_iff in P. destruct P as [P1 P2].
    apply String.eqb_eq in P2. subst n. destruct (TK _ _ Hj P1) as (w & HIw & Tw).
    apply (in_get _ sspec) in HIw; [|exact ND]. congruence. }
  assert (ONE : forall k, tm_task m = Some k -> sending n t' = [mkTask n (tm_frame m) true]).
  { intros k T. destruct (OW _ _ _ HI T) as (_ & _ & _ & N). apply (filter_single _ _ k); [|exact N|cbn; apply String.eqb_refl].
    intros j y Hj P. apply andb_true_iff in P. destruct P as [P1 P2]. apply String.eqb_eq in P2. subst n.
    destruct (TK _ _ Hj P1) as (w & HIw & Tw). apply (in_get _ sspec) in HIw; [|exact ND]. congruence. }
  destruct (te_running t') eqn:R.
  - destruct (tm_enabled m && tc_periodic (tm_conf m)) eqn:EP.
    + apply andb_true_iff in EP. destruct EP as [E1 E2]. destruct (tm_task m) as [k|] eqn:T; [left; eauto|].
      right. split; [|auto]. destruct (from_dut dut (tm_conf m)) eqn:D; [reflexivity|]. exfalso.
      apply (ON eq_refl n m); auto. now rewrite DUT.
    + apply NOT. destruct (tm_task m) as [k|] eqn:T; [|reflexivity]. destruct (OW _ _ _ HI T) as (_ & E1 & E2 & _).
      rewrite E1, E2 in EP. discriminate.
  - apply NOT. destruct (tm_task m) as [k|] eqn:T; [|reflexivity]. destruct (OW _ _ _ HI T) as (E1 & _). congruence.
Qed.

(** *** Examples and refutations for C35: two messages, one of them sent by the device under test *)
Definition conf_of (m : message) (senders : list string) (scaling padding : bool) : tconf :=
  mkTconf (mkEntry m true []) false true senders [] scaling padding true.
Definition ex_confs : list tconf := [conf_of flat_msg [] true false; conf_of ex_msg ["Dut"%string] true false].
Definition set_x (z : Z) : list (string * value) := [("X"%string, VNum (NInt z))].

(** The frames that a message is sent with. *)
Definition sent_data (n : string) (t : tester) : list (option (list Z)) :=
  map (fun k => option_map fr_data (tk_frame k)) (sending n t).

Fixpoint run (t : tester) (os : list op) : tester := match os with [] => t | o :: r => run (fst (step t o)) r end.
Fixpoint calm (t : tester) (os : list op) : bool :=
  match os with
  | [] => true
  | o :: r =>
      (match o with
       | OStart => negb (te_running t)
       | OEnable n => negb (te_running t) || match sget (te_messages t) n with Some m => negb (tm_enabled m) | None => true end
       | _ => true
       end) && calm (fst (step t o)) r
  end.
Lemma calm_exec os : forall t, calm t os = true -> exec no_restart t os (run t os).
Proof.
  induction os as [|o os IH]; intros t H; [constructor|]. cbn [calm] in H. apply andb_true_iff in H. destruct H as [H1 H2].
  cbn [run]. apply ex_cons; [|auto]. destruct o; cbn [no_restart]; auto.
  - now apply negb_true_iff.
  - intros R m G. rewrite R, G in H1. cbn in H1. now apply negb_true_iff.
Qed.

Example C35_hypotheses : exists t, new_tester (Some "Dut"%string) ex_confs = Ok t /\
  let os := [OUpdate "Flat" (set_x 5); OStart; OSetItem "Flat" "X" (VNum (NInt 7)); OUpdate "Flat" (set_x (2 ^ 20)); OEnable "Nobody"]%string in
  exec no_restart t os (run t os) /\ te_running (run t os) = true /\
  sent_data "Flat" (run t os) = [Some [0; 7; 0]] /\ sending "Ex" (run t os) = [].
Proof.
  destruct (new_tester (Some "Dut"%string) ex_confs) as [t|] eqn:E; [|vm_compute in E; discriminate E].
  exists t. split; [reflexivity|]. cbv zeta. vm_compute in E. apply Ok_inj in E. subst t.
  split; [apply calm_exec; vm_compute; reflexivity|]. split; [vm_compute; reflexivity|]. split; vm_compute; reflexivity.
Qed.

(** Enabling an enabled message of a running tester starts a second task; the first one is never stopped,
    and keeps sending the old data. *)
Theorem C35_enable_twice_refuted : exists t, new_tester None ex_confs = Ok t /\
  let t' := run t [OStart; OEnable "Flat"; OUpdate "Flat" (set_x 9); OStop]%string in
  te_running t' = false /\ sent_data "Flat" t' = [Some [0; 0; 0]].
Proof.
  destruct (new_tester None ex_confs) as [t|] eqn:E; [|vm_compute in E; discriminate E].
  exists t. split; [reflexivity|]. cbv zeta. vm_compute in E. apply Ok_inj in E. subst t. split; vm_compute; reflexivity.
Qed.
(** The same for starting a running tester. *)
Theorem C35_start_twice_refuted : exists t, new_tester None ex_confs = Ok t /\
  let t' := run t [OStart; OStart; OStop] in
  te_running t' = false /\ sent_data "Flat" t' = [Some [0; 0; 0]].
Proof.
  destruct (new_tester None ex_confs) as [t|] eqn:E; [|vm_compute in E; discriminate E].
  exists t. split; [reflexivity|]. cbv zeta. vm_compute in E. apply Ok_inj in E. subst t. split; vm_compute; reflexivity.
Qed.
(** start() does not send the messages of the device under test, but enable() does. *)
Theorem C35_enable_sends_dut_refuted : exists t, new_tester (Some "Dut"%string) ex_confs = Ok t /\
  let t1 := run t [OStart] in let t2 := run t [OStart; ODisable "Ex"; OEnable "Ex"]%string in
  sending "Ex" t1 = [] /\ List.length (sending "Ex" t2) = 1%nat.
Proof.
  destruct (new_tester (Some "Dut"%string) ex_confs) as [t|] eqn:E; [|vm_compute in E; discriminate E].
  exists t. split; [reflexivity|]. cbv zeta. vm_compute in E. apply Ok_inj in E. subst t. split; vm_compute; reflexivity.
Qed.

(** ** C36 *)

(** The frame of the message carries the encoding of its current data. *)
Definition in_sync (m : tmsg) : Prop :=
  exists g b f, gather_signals (tc_msg (tm_conf m)) (tm_data m) = Ok g /\
    entry_encode (tc_entry (tm_conf m)) (IDict g) (tc_scaling (tm_conf m)) (tc_padding (tm_conf m)) (tc_strict (tm_conf m)) = Ok b /\
    tm_frame m = Some f /\ fr_data f = b /\
    fr_id f = m_frame_id (tc_msg (tm_conf m)) /\ fr_extended f = m_extended (tc_msg (tm_conf m)).

Lemma make_frame_sync m f : make_frame (tm_conf m) (tm_data m) = Ok f -> tm_frame m = Some f -> in_sync m.
Proof.
  unfold make_frame. intros H E. apply bind_ok in H. destruct H as (g & Hg & H). apply bind_ok in H. destruct H as (b & Hb & H).
  unfold can_message in H. destruct (_ || _); [discriminate|]. destruct (_ || _ || _); [discriminate|]. apply Ok_inj in H.
  exists g, b, f. subst f. cbn. auto 10.
Qed.

(** Calls that change signal values through the mapping methods that the code does not override. *)
Definition overridden (o : op) : Prop := match o with ODelItem _ _ | OIor _ _ => False | _ => True end.
(** The call gives values for known signals that cannot be encoded. *)
Definition not_encodable (o : op) (t : tester) : Prop :=
  match o with
  | OSend n (Some d) | OUpdate n d => exists m, sget (te_messages t) n = Some m /\
      forallb (fun kv => strmem (fst kv) (signal_names m)) d = true /\
      exists e, make_frame (tm_conf m) (supdate (tm_data m) d) = Err e
  | OSetItem n k v => exists m, sget (te_messages t) n = Some m /\ strmem k (signal_names m) = true /\
      exists e, make_frame (tm_conf m) (sset (tm_data m) k v) = Err e
  | _ => False
  end.
Definition sound_op (t : tester) (o : op) : Prop := overridden o /\ ~ not_encodable o t.

Definition all_sync (t : tester) : Prop := NoDup (map fst (te_messages t)) /\ forall n m, In (n, m) (te_messages t) -> in_sync m.

Lemma sync_fields m m' : in_sync m -> tm_conf m' = tm_conf m -> tm_data m' = tm_data m -> tm_frame m' = tm_frame m -> in_sync m'.
Proof. intros (g & b & f & H) E1 E2 E3. exists g, b, f. rewrite E1, E2, E3. exact H. Qed.

Lemma sync_with t n m m' ts : all_sync t -> sget (te_messages t) n = Some m -> in_sync m' -> all_sync (with_msg t n m' ts).
Proof.
  intros [ND A] G S. destruct (set_in _ _ _ m' ND G) as [KS SI]. split; cbn [with_msg te_messages].
  - now rewrite KS.
  - intros k w HI. apply SI in HI. destruct HI as [[-> ->]|[_ HI]]; eauto.
Qed.

Lemma update_sync m d ts m' ts' : update_can_message m d ts = (m', ts', None) -> in_sync m' /\ tm_data m' = d.
Proof.
  intros H. apply update_can_spec in H. destruct H as (E1 & E2 & E3 & E4 & M).
  destruct (make_frame (tm_conf m) d) as [f|] eqn:F; [|destruct M as (_ & _ & [=])].
  destruct M as (E5 & _). split; [|exact E4]. apply (make_frame_sync m' f); [now rewrite E1, E4|exact E5].
Qed.

Lemma start_sync dut ms : forall ts ms' ts', start_all dut ms ts = (ms', ts') -> (forall n m, In (n, m) ms -> in_sync m) ->
  map fst ms' = map fst ms /\ forall n m, In (n, m) ms' -> in_sync m.
Proof.
  intros ts ms' ts' E H. destruct (start_all_spec _ _ _ _ _ E) as (_ & _ & NM & MS & _). split; [exact NM|].
  intros n m HI. destruct (MS _ _ HI) as (m0 & HI0 & S). specialize (H _ _ HI0).
  destruct (starts dut m0); [|now subst]. destruct S as (k & -> & _). eapply sync_fields; eauto.
Qed.

Lemma step_sync t o : all_sync t -> sound_op t o -> all_sync (fst (step t o)).
Proof.
  intros S [OV NE]. pose proof S as [ND A].
  destruct o as [| |n|n|n d|n d|n k v|n k|n d]; cbn [step]; cbn [overridden] in OV; try contradiction.
  - destruct (start_all _ _ _) as [ms ts] eqn:E. destruct (start_sync _ _ _ _ _ E A) as [NM Q]. split; cbn; [now rewrite NM|exact Q].
  - destruct (stop_all _ _) as [ms ts] eqn:E. destruct (stop_all_spec _ _ _ _ E) as (NM & MS & _). split; cbn; [now rewrite NM|].
    intros n m HI. destruct (MS _ _ HI) as (m0 & HI0 & ->). eapply sync_fields; [exact (A _ _ HI0)|reflexivity..].
  - destruct (sget (te_messages t) n) as [m|] eqn:G; [|exact S]. specialize (A _ _ (get_in _ sspec _ _ _ G)).
    destruct (te_running t && tc_periodic (tm_conf m)); cbn [periodic_start tm_enabled set_enabled fst];
      eapply sync_with; eauto; eapply sync_fields; eauto.
  - destruct (sget (te_messages t) n) as [m|] eqn:G; [|exact S]. specialize (A _ _ (get_in _ sspec _ _ _ G)).
    destruct (te_running t && tc_periodic (tm_conf m)); unfold periodic_stop; cbn [tm_task set_enabled];
      [destruct (tm_task m)|]; cbn [fst]; eapply sync_with; eauto; eapply sync_fields; eauto.
  - destruct (sget (te_messages t) n) as [m|] eqn:G; [|exact S]. specialize (A _ _ (get_in _ sspec _ _ _ G)).
    destruct d as [d|].
    + destruct (msg_update m d (te_tasks t)) as [[m1 ts] e] eqn:U.
      assert (Q : in_sync m1).
      { unfold msg_update in U. destruct (forallb _ d) eqn:FB; [|injection U as <- _ _; exact A].
        destruct e as [e|]; [|eapply update_sync; eauto].
        exfalso. apply NE. exists m. split; [exact G|]. split; [exact FB|].
        apply update_can_spec in U. destruct U as (_ & _ & _ & _ & M). destruct (make_frame _ _) as [f|x]; [destruct M as (_ & [=] & _)|eauto]. }
      destruct e; cbn [fst]; [eapply sync_with; eauto|]. apply (sync_with t n m m1 ts S G Q).
    + cbn [fst]. apply (sync_with t n m m (te_tasks t) S G A).
  - destruct (sget (te_messages t) n) as [m|] eqn:G; [|exact S]. specialize (A _ _ (get_in _ sspec _ _ _ G)).
    destruct (msg_update m d (te_tasks t)) as [[m1 ts] e] eqn:U. cbn [fst]. eapply sync_with; eauto.
    unfold msg_update in U. destruct (forallb _ d) eqn:FB; [|injection U as <- _ _; exact A].
    destruct e as [e|]; [|eapply update_sync; eauto].
    exfalso. apply NE. exists m. split; [exact G|]. split; [exact FB|].
    apply update_can_spec in U. destruct U as (_ & _ & _ & _ & M). destruct (make_frame _ _) as [f|x]; [destruct M as (_ & [=] & _)|eauto].
  - destruct (sget (te_messages t) n) as [m|] eqn:G; [|exact S]. specialize (A _ _ (get_in _ sspec _ _ _ G)).
    destruct (msg_setitem m k v (te_tasks t)) as [[m1 ts] e] eqn:U. cbn [fst]. eapply sync_with; eauto.
    unfold msg_setitem in U. destruct (strmem k _) eqn:FB; [|injection U as <- _ _; exact A].
    destruct e as [e|]; [|eapply update_sync; eauto].
    exfalso. apply NE. exists m. split; [exact G|]. split; [exact FB|].
    apply update_can_spec in U. destruct U as (_ & _ & _ & _ & M). destruct (make_frame _ _) as [f|x]; [destruct M as (_ & [=] & _)|eauto].
Qed.

(** If no call gave values that cannot be encoded (calls with unknown names may fail), every message of the
    tester is in sync, and so are the frames sent by its periodic tasks (C35_periodic). *)
Theorem C36_in_sync dut cs t os t' : new_tester dut cs = Ok t -> exec sound_op t os t' ->
  forall n m, sget (te_messages t') n = Some m -> in_sync m.
Proof.
  intros H E. assert (S : all_sync t).
  { destruct (new_tester_spec _ _ _ H) as (_ & _ & _ & _ & ND & F). split; [exact ND|].
    intros n m HI. destruct (F _ _ HI) as (_ & _ & f & E1 & E2). eapply make_frame_sync; eauto. }
  clear H. induction E as [t|t o os t' OK E IH].
  - intros n m G. apply (get_in _ sspec) in G. destruct S as [_ S]. eauto.
  - apply IH. apply step_sync; auto.
Qed.

(** Whatever happened before, a successful update leaves the message in sync and holding the given values. *)
Theorem C36_update_restores t n d : (exists m, sget (te_messages t) n = Some m) -> NoDup (map fst d) ->
  snd (step t (OUpdate n d)) = None ->
  exists m, sget (te_messages (fst (step t (OUpdate n d)))) n = Some m /\ in_sync m /\
    forall k v, sget d k = Some v -> sget (tm_data m) k = Some v.
Proof.
  intros [m G] ND H. cbn [step] in *. rewrite G in *. destruct (msg_update m d (te_tasks t)) as [[m1 ts] e] eqn:U.
  cbn [fst snd] in *. subst e. exists m1. split.
  { cbn. rewrite (get_set _ sspec), String.eqb_refl. reflexivity. }
  apply msg_update_spec in U. destruct U as [(_ & _ & [=])|U]. destruct (update_sync _ _ _ _ _ U) as [S E]. split; [exact S|].
  intros k v Hv. rewrite E, (get_upd _ sspec) by exact ND. now rewrite Hv.
Qed.

(** What send() puts on the bus is the frame of the message. *)
Theorem C36_send t n d m : sget (te_messages t) n = Some m -> snd (step t (OSend n d)) = None ->
  exists m', sget (te_messages (fst (step t (OSend n d)))) n = Some m' /\
    te_sent (fst (step t (OSend n d))) = te_sent t ++ [(n, tm_frame m')] /\
    match d with Some _ => in_sync m' | None => m' = m end.
Proof.
  intros G H. cbn [step] in *. rewrite G in *. destruct d as [d|].
  - destruct (msg_update m d (te_tasks t)) as [[m1 ts] e] eqn:U. destruct e; [discriminate|]. cbn [fst te_messages te_sent with_msg].
    exists m1. split; [rewrite (get_set _ sspec), String.eqb_refl; reflexivity|]. split; [reflexivity|].
    apply msg_update_spec in U. destruct U as [(_ & _ & [=])|U]. eapply update_sync; eauto.
  - cbn [fst te_messages te_sent with_msg]. exists m. split; [rewrite (get_set _ sspec), String.eqb_refl; reflexivity|]. auto.
Qed.

Example C36_hypotheses : exists t, new_tester None ex_confs = Ok t /\
  let os := [OUpdate "Flat" (set_x 5); OUpdate "Flat" [("Zzz", VNum (NInt 1))]; OSend "Flat" (Some (set_x 6)); OStart]%string in
  exec sound_op t os (run t os) /\ snd (step (run t [OUpdate "Flat" (set_x 5)]%string) (OUpdate "Flat" [("Zzz", VNum (NInt 1))]%string)) = Some KeyError /\
  map (fun s => option_map fr_data (snd s)) (te_sent (run t os)) = [Some [0; 6; 0]].
Proof.
  destruct (new_tester None ex_confs) as [t|] eqn:E; [|vm_compute in E; discriminate E].
  exists t. split; [reflexivity|]. cbv zeta. vm_compute in E. apply Ok_inj in E. subst t.
  split; [|split; vm_compute; reflexivity].
  repeat (apply ex_cons; [split; [exact I|]|]); [..|apply ex_nil].
  - intros (m & G & FB & e & F). vm_compute in G. injection G as <-. vm_compute in F. discriminate F.
  - intros (m & G & FB & e & F). vm_compute in G. injection G as <-. vm_compute in FB. discriminate FB.
  - intros (m & G & FB & e & F). vm_compute in G. injection G as <-. vm_compute in F. discriminate F.
  - intros [].
Qed.

(** The claim fails after an update with a value that cannot be encoded: the exception leaves the new value in
    the message, but the frame keeps the old one, and a later send() sends the old frame without an error. *)
Theorem C36_failed_update_refuted : exists t, new_tester None ex_confs = Ok t /\
  let t1 := run t [OUpdate "Flat" (set_x 5); OUpdate "Flat" (set_x (2 ^ 20))]%string in
  snd (step (run t [OUpdate "Flat" (set_x 5)]%string) (OUpdate "Flat" (set_x (2 ^ 20)))) = Some RangeError /\
  (exists m, sget (te_messages t1) "Flat"%string = Some m /\ sget (tm_data m) "X"%string = Some (VNum (NInt (2 ^ 20))) /\ ~ in_sync m) /\
  snd (step t1 (OSend "Flat" None)) = None /\
  map (fun s => option_map fr_data (snd s)) (te_sent (fst (step t1 (OSend "Flat" None)))) = [Some [0; 5; 0]].
Proof.
  destruct (new_tester None ex_confs) as [t|] eqn:E; [|vm_compute in E; discriminate E].
  exists t. split; [reflexivity|]. cbv zeta. vm_compute in E. apply Ok_inj in E. subst t.
  split; [vm_compute; reflexivity|]. split; [|split; vm_compute; reflexivity].
  eexists. split; [vm_compute; reflexivity|]. split; [vm_compute; reflexivity|].
  intros (g & b & f & H1 & H2 & _). vm_compute in H1. apply Ok_inj in H1. subst g. vm_compute in H2. discriminate H2.
Qed.

(** Deleting a value, and the |= operator, change the data but not the frame. *)
Theorem C36_delete_refuted : exists t, new_tester None ex_confs = Ok t /\
  let t1 := run t [ODelItem "Flat" "X"]%string in
  exists m, sget (te_messages t1) "Flat"%string = Some m /\ snd (step t (ODelItem "Flat" "X")) = None /\ ~ in_sync m.
Proof.
  destruct (new_tester None ex_confs) as [t|] eqn:E; [|vm_compute in E; discriminate E].
  exists t. split; [reflexivity|]. cbv zeta. vm_compute in E. apply Ok_inj in E. subst t.
  eexists. split; [vm_compute; reflexivity|]. split; [vm_compute; reflexivity|].
  intros (g & b & f & H1 & H2 & _). vm_compute in H1. discriminate H1.
Qed.
Theorem C36_ior_refuted : exists t, new_tester None ex_confs = Ok t /\
  let t1 := run t [OIor "Flat" (set_x 3)]%string in
  exists m, sget (te_messages t1) "Flat"%string = Some m /\ sget (tm_data m) "X"%string = Some (VNum (NInt 3)) /\ ~ in_sync m.
Proof.
  destruct (new_tester None ex_confs) as [t|] eqn:E; [|vm_compute in E; discriminate E].
  exists t. split; [reflexivity|]. cbv zeta. vm_compute in E. apply Ok_inj in E. subst t.
  eexists. split; [vm_compute; reflexivity|]. split; [vm_compute; reflexivity|].
  intros (g & b & f & H1 & H2 & H3 & H4 & _). vm_compute in H1. apply Ok_inj in H1. subst g. vm_compute in H2. apply Ok_inj in H2.
  vm_compute in H3. injection H3 as <-. subst b. vm_compute in H4. discriminate H4.
Qed.
