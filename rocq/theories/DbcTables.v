(** DbcTables: dictionaries that are filled from lists of items, as the loader of DBC files does. *)
From Coq Require Import Ascii Permutation.
From Verif Require Import Base CSource CNames DictLemmas DbcStmt DbcDump DbcLoad.
Local Open Scope string_scope.
Local Open Scope Z_scope.
Local Open Scope list_scope.

Lemma cspec (a b : chars) : reflect (a = b) (chars_eqb a b).
Proof. unfold chars_eqb; destruct (list_eq_dec ascii_dec a b); constructor; assumption. Qed.
Lemma zcspec (a b : Z * chars) : reflect (a = b) (zc_eqb a b).
Proof.
  destruct a as [a x], b as [b y]. unfold zc_eqb. cbn [fst snd].
  destruct (Z.eqb_spec a b) as [->|N]; [|constructor; congruence]. destruct (cspec x y) as [->|N]; constructor; congruence.
Qed.
Lemma ospec (a b : okey) : reflect (a = b) (okey_eqb a b).
Proof.
  destruct a as [|a|a|a|a x], b as [|b|b|b|b y]; cbn [okey_eqb]; try (constructor; congruence).
  - destruct (cspec a b) as [->|N]; constructor; congruence.
  - destruct (cspec a b) as [->|N]; constructor; congruence.
  - destruct (Z.eqb_spec a b) as [->|N]; constructor; congruence.
  - destruct (Z.eqb_spec a b) as [->|N]; [|constructor; congruence]. destruct (cspec x y) as [->|N]; constructor; congruence.
Qed.

(** ** Building from a flattened dictionary *)
Section Build.
  Context {K X D : Type} (eqb : K -> K -> bool) (spec : forall a b, reflect (a = b) (eqb a b)).
  Context (P : list D -> X -> list D) (low : list D -> list X).
  Definition up (d : list (K * list D)) (x : K * X) : list (K * list D) := dset eqb d (fst x) (P (or_empty (dget eqb d (fst x))) (snd x)).
  Definition flat (d : list (K * list D)) : list (K * X) := flat_map (fun p => map (pair (fst p)) (low (snd p))) d.
  Lemma up_last k xs : forall d c, ~ In k (map fst d) -> fold_left up (map (pair k) xs) (d ++ [(k, c)]) = d ++ [(k, fold_left P xs c)].
  Proof.
    induction xs as [|x xs IH]; intros d c N; [reflexivity|]. cbn [map fold_left].
    assert (E : up (d ++ [(k, c)]) (k, x) = d ++ [(k, P c x)]).
    { unfold up. cbn [fst snd]. rewrite get_app. apply (get_none _ spec) in N as G. rewrite G. cbn [dget]. rewrite (eqb_refl' _ spec). cbn [or_empty].
      clear G IH. induction d as [|[k' v'] d IHd]; cbn [app dset].
      - rewrite (eqb_refl' _ spec). reflexivity.
      - destruct (spec k' k) as [->|Ne]; [exfalso; apply N; left; reflexivity|]. rewrite IHd; [reflexivity|]. intros H. apply N. right. exact H. }
    rewrite E. apply IH, N.
  Qed.
  Lemma up_new k xs d : ~ In k (map fst d) -> xs <> [] -> fold_left up (map (pair k) xs) d = d ++ [(k, fold_left P xs [])].
  Proof.
    intros N Ne. destruct xs as [|x xs]; [contradiction|]. cbn [map fold_left].
    assert (E : up d (k, x) = d ++ [(k, P [] x)]).
    { unfold up. cbn [fst snd]. apply (get_none _ spec) in N as G. rewrite G. cbn [or_empty]. apply (set_new _ spec), N. }
    rewrite E. apply up_last, N.
  Qed.
  Lemma build_app d : forall e, NoDup (map fst (e ++ d)) -> (forall p, In p d -> low (snd p) <> [] /\ fold_left P (low (snd p)) [] = snd p) ->
    fold_left up (flat d) e = e ++ d.
  Proof.
    induction d as [|[k c] d IH]; intros e N H; [rewrite app_nil_r; reflexivity|].
    cbn [flat flat_map fst snd]. rewrite fold_left_app. destruct (H (k, c) (or_introl eq_refl)) as [H1 H2]. cbn [snd] in H1, H2.
    rewrite up_new; [|rewrite map_app in N; cbn [map fst] in N; apply NoDup_remove_2 in N; rewrite in_app_iff in N; tauto|exact H1].
    rewrite H2. change (flat_map (fun p => map (pair (fst p)) (low (snd p))) d) with (flat d). rewrite IH.
    - rewrite <- app_assoc. reflexivity.
    - rewrite <- app_assoc. exact N.
    - intros p I. apply H. right. exact I.
  Qed.
  Lemma build d : NoDup (map fst d) -> (forall p, In p d -> low (snd p) <> [] /\ fold_left P (low (snd p)) [] = snd p) -> fold_left up (flat d) [] = d.
  Proof. intros N H. rewrite build_app; auto. Qed.
  (** Entries without items are left out. *)
  Lemma build_filter d : NoDup (map fst d) -> (forall p, In p d -> low (snd p) = [] \/ fold_left P (low (snd p)) [] = snd p) ->
    fold_left up (flat d) [] = filter (fun p => match low (snd p) with [] => false | _ => true end) d.
  Proof.
    intros N H.
    set (g := fun p : K * list D => match low (snd p) with [] => false | _ => true end).
    assert (E : flat d = flat (filter g d)).
    { clear N H. induction d as [|p d IH]; [reflexivity|]. cbn [filter]. unfold g at 1. destruct (low (snd p)) eqn:L.
      - cbn [flat flat_map]. rewrite L. cbn [map app]. exact IH.
      - cbn [flat flat_map]. fold (flat d). fold (flat (filter g d)). rewrite IH. reflexivity. }
    rewrite E. apply build.
    - clear - N. induction d as [|p d IH]; [exact N|]. cbn [map] in N. apply NoDup_cons_iff in N. destruct N as [N1 N2]. cbn [filter].
      destruct (g p); [|apply IH, N2]. cbn [map]. constructor; [|apply IH, N2]. intros I. apply N1. apply in_map_iff in I. destruct I as (q & Q & I).
      apply filter_In in I. apply in_map_iff. exists q. tauto.
    - intros p I. apply filter_In in I. destruct I as [I G]. unfold g in G. destruct (low (snd p)) eqn:L; [discriminate G|].
      split; [discriminate|]. destruct (H p I) as [L'|L']; [rewrite L in L'; discriminate L'|]. rewrite L in L'. exact L'.
  Qed.
End Build.

(** ** One level: the names and values of one object *)
Definition leaf {A} (d : list (chars * A)) (x : chars * A) : list (chars * A) := cset d (fst x) (snd x).
Lemma leaf_build {A} (d : list (chars * A)) : NoDup (map fst d) -> fold_left leaf d [] = d.
Proof. intros N. change (dupdate chars_eqb [] d = d). rewrite (upd_app _ cspec); [reflexivity|exact N]. Qed.
Lemma put_up {K A} (eqb : K -> K -> bool) (d : list (K * list (chars * A))) x : put eqb d x = up eqb leaf d x.
Proof. reflexivity. Qed.
Lemma nest_up {K A} (eqb : K -> K -> bool) (l : list (K * (chars * A))) : nest eqb l = fold_left (up eqb leaf) l [].
Proof. reflexivity. Qed.
Lemma filter_get {K V} (eqb : K -> K -> bool) (spec : forall a b, reflect (a = b) (eqb a b)) (g : K * V -> bool) (d : list (K * V)) k :
  NoDup (map fst d) -> dget eqb (filter g d) k = match dget eqb d k with Some v => if g (k, v) then Some v else None | None => None end.
Proof.
  intros N. induction d as [|[k' v] d IH]; [reflexivity|]. cbn [map fst] in N. apply NoDup_cons_iff in N. destruct N as [N1 N2]. cbn [filter dget].
  destruct (spec k' k) as [->|Ne].
  - destruct (g (k, v)) eqn:G; [cbn [dget]; rewrite (eqb_refl' _ spec); reflexivity|]. rewrite IH by exact N2. apply (get_none _ spec) in N1. rewrite N1. reflexivity.
  - destruct (g (k', v)); [cbn [dget]; destruct (spec k' k); [contradiction|]|]; apply IH, N2.
Qed.
(** The objects with their attributes, as [load_attributes] finds them. *)
Definition flat1 {K A} (objs : list (K * list A)) : list (K * A) := flat_map (fun p => map (pair (fst p)) (snd p)) objs.
Lemma nest_get {K A} (eqb : K -> K -> bool) (spec : forall a b, reflect (a = b) (eqb a b)) (objs : list (K * list (chars * A))) k :
  NoDup (map fst objs) -> (forall p, In p objs -> NoDup (map fst (snd p))) -> or_empty (dget eqb (nest eqb (flat1 objs)) k) = or_empty (dget eqb objs k).
Proof.
  intros N H. rewrite nest_up. change (flat1 objs) with (flat (fun x : list (chars * A) => x) objs).
  rewrite (build_filter eqb spec leaf (fun x => x)); [|exact N|intros p I; right; apply leaf_build, H, I].
  rewrite (filter_get eqb spec) by exact N. destruct (dget eqb objs k) as [v|]; [|reflexivity]. cbn [snd]. destruct v; reflexivity.
Qed.

(** ** Optional values by key *)
Definition opts {K V} (objs : list (K * option V)) : list (K * V) := flat_map (fun p => match snd p with Some v => [(fst p, v)] | None => [] end) objs.
Lemma opts_keys {K V} (objs : list (K * option V)) k : In k (map fst (opts objs)) -> In k (map fst objs).
Proof.
  induction objs as [|[k' o] l IH]; [trivial|]. unfold opts. cbn [flat_map snd fst]. fold (opts l). rewrite map_app, in_app_iff. intros [I|I]; [|right; auto].
  destruct o; [|destruct I]. destruct I as [I|[]]. left. exact I.
Qed.
Lemma opts_nodup {K V} (objs : list (K * option V)) : NoDup (map fst objs) -> NoDup (map fst (opts objs)).
Proof.
  induction objs as [|[k o] l IH]; intros N; [constructor|]. cbn [map fst] in N. apply NoDup_cons_iff in N. destruct N as [N1 N2].
  unfold opts. cbn [flat_map snd fst]. fold (opts l). destruct o; [|apply IH, N2]. cbn [app map fst]. constructor; [|apply IH, N2].
  intros I. apply N1, (opts_keys l), I.
Qed.
Lemma opts_get {K V} (eqb : K -> K -> bool) (spec : forall a b, reflect (a = b) (eqb a b)) (objs : list (K * option V)) k : NoDup (map fst objs) ->
  dget eqb (dupdate eqb [] (opts objs)) k = match dget eqb objs k with Some o => o | None => None end.
Proof.
  intros N. rewrite (upd_app _ spec) by (apply opts_nodup, N). cbn [app].
  induction objs as [|[k' o] l IH]; [reflexivity|]. cbn [map fst] in N. apply NoDup_cons_iff in N. destruct N as [N1 N2].
  unfold opts. cbn [flat_map snd fst]. fold (opts l). cbn [dget]. destruct (spec k' k) as [->|Ne].
  - destruct o as [v|]; [cbn [app dget]; rewrite (eqb_refl' _ spec); reflexivity|]. cbn [app]. rewrite IH by exact N2. apply (get_none _ spec) in N1. rewrite N1. reflexivity.
  - destruct o as [v|]; [cbn [app dget]; destruct (spec k' k); [contradiction|]|cbn [app]]; apply IH, N2.
Qed.

(** ** The items of one frame *)
Lemma of_frame_app {A} fid (a b : list (Z * A)) : of_frame fid (a ++ b) = of_frame fid a ++ of_frame fid b.
Proof. apply flat_map_app. Qed.
Lemma of_frame_other {A} fid k (l : list A) : k <> fid -> of_frame fid (map (pair k) l) = [].
Proof. intros N. induction l as [|x l IH]; [reflexivity|]. unfold of_frame in *. cbn [map flat_map fst]. destruct (Z.eqb_spec k fid); [contradiction|exact IH]. Qed.
Lemma of_frame_same {A} fid (l : list A) : of_frame fid (map (pair fid) l) = l.
Proof. induction l as [|x l IH]; [reflexivity|]. unfold of_frame in *. cbn [map flat_map fst snd]. rewrite Z.eqb_refl. cbn [app]. f_equal. exact IH. Qed.
Lemma of_frame_flat {M A} (fr : M -> Z) (g : M -> list A) ms m : NoDup (map fr ms) -> In m ms ->
  of_frame (fr m) (flat_map (fun m => map (pair (fr m)) (g m)) ms) = g m.
Proof.
  induction ms as [|x ms IH]; intros N I; [destruct I|]. cbn [map] in N. apply NoDup_cons_iff in N. destruct N as [N1 N2].
  cbn [flat_map]. rewrite of_frame_app. destruct I as [->|I].
  - rewrite of_frame_same. assert (E : of_frame (fr m) (flat_map (fun m => map (pair (fr m)) (g m)) ms) = []).
    { clear IH N2. induction ms as [|y ms IH]; [reflexivity|]. cbn [flat_map]. rewrite of_frame_app, of_frame_other, IH; [reflexivity| |].
      - intros H. apply N1. right. exact H.
      - intros H. apply N1. left. exact H. }
    rewrite E. apply app_nil_r.
  - rewrite of_frame_other; [apply IH; assumption|]. intros E. apply N1. rewrite E. apply in_map, I.
Qed.

(** ** Multiplexer values: signals in any order *)
Section Nest.
  Context {A : Type}.
  Definition pick (k : chars) (l : list (chars * (chars * A))) : list (chars * A) := flat_map (fun x => if chars_eqb (fst x) k then [snd x] else []) l.
  Lemma pick_app k a b : pick k (a ++ b) = pick k a ++ pick k b. Proof. apply flat_map_app. Qed.
  Lemma nest_pick l k : or_empty (dget chars_eqb (nest chars_eqb l) k) = dupdate chars_eqb [] (pick k l).
  Proof.
    induction l as [|x l IH] using rev_ind; [reflexivity|]. unfold nest in *. rewrite fold_left_app, pick_app. cbn [fold_left].
    set (d := fold_left (put chars_eqb) l []) in *. unfold put. rewrite (get_set _ cspec). unfold pick at 2. cbn [flat_map]. rewrite app_nil_r.
    unfold dupdate. rewrite fold_left_app. fold (dupdate chars_eqb [] (pick k l)). destruct (cspec (fst x) k) as [->|N]; [|exact IH].
    cbn [or_empty fold_left]. rewrite <- IH. reflexivity.
  Qed.
  Lemma nest_mem l k : dget chars_eqb (nest chars_eqb l) k = None -> pick k l = [].
  Proof.
    induction l as [|x l IH] using rev_ind; [reflexivity|]. unfold nest in *. rewrite fold_left_app, pick_app. cbn [fold_left].
    unfold put at 1. rewrite (get_set _ cspec). unfold pick at 2. cbn [flat_map]. destruct (cspec (fst x) k); [discriminate|]. intros H. rewrite IH by exact H. reflexivity.
  Qed.
  Lemma nest_nodup (l : list (chars * (chars * A))) : NoDup (map fst (nest chars_eqb l)).
  Proof. unfold nest. induction l as [|x l IH] using rev_ind; [constructor|]. rewrite fold_left_app. cbn [fold_left]. unfold put at 1. apply (set_nodup _ cspec), IH. Qed.
  Lemma pick_in k l n a : In (n, a) (pick k l) <-> In (k, (n, a)) l.
  Proof.
    unfold pick. rewrite in_flat_map. split.
    - intros ((k' & y) & I & J). cbn [fst snd] in J. destruct (cspec k' k) as [->|]; [|destruct J]. destruct J as [->|[]]. exact I.
    - intros I. exists (k, (n, a)). split; [exact I|]. cbn [fst snd]. destruct (cspec k k); [left; reflexivity|congruence].
  Qed.
  Lemma pick_nodup k l : NoDup (map (fun x => fst (snd x)) l) -> NoDup (map fst (pick k l)).
  Proof.
    induction l as [|x l IH]; intros N; [constructor|]. cbn [map] in N. apply NoDup_cons_iff in N. destruct N as [N1 N2].
    unfold pick. cbn [flat_map]. fold (pick k l). destruct (cspec (fst x) k) as [E|]; [|apply IH, N2]. cbn [app map]. constructor; [|apply IH, N2].
    intros I. apply N1. apply in_map_iff in I. destruct I as ((n & a) & E' & I). apply pick_in in I. apply in_map_iff. exists (k, (n, a)). split; [exact E'|exact I].
  Qed.
  (** What is found under a multiplexer and a signal name *)
  Lemma nest_entry l k n : NoDup (map (fun x => fst (snd x)) l) ->
    match cget (nest chars_eqb l) k with Some e => cget e n | None => None end = cget (pick k l) n.
  Proof.
    intros N. unfold cget. pose proof (nest_pick l k) as E. rewrite (upd_app _ cspec) in E by (apply pick_nodup, N). cbn [app] in E.
    destruct (dget chars_eqb (nest chars_eqb l) k) as [e|] eqn:G; [cbn [or_empty] in E; rewrite E; reflexivity|].
    rewrite nest_mem by exact G. reflexivity.
  Qed.
End Nest.
Lemma mux_of_last (mv : mux_values) n k e : NoDup (map fst mv) -> In (k, e) mv -> cmem e n = true ->
  (forall k' e', In (k', e') mv -> cmem e' n = true -> k' = k) -> mux_of mv n = Some k.
Proof.
  intros N I C U. unfold mux_of.
  assert (G : forall (l : mux_values) acc, (forall k' e', In (k', e') l -> cmem e' n = true -> k' = k) -> (acc = Some k \/ exists e, In (k, e) l /\ cmem e n = true) ->
            fold_left (fun acc p => if cmem (snd p) n then Some (fst p) else acc) l acc = Some k).
  { clear. induction l as [|[k' e'] l IH]; intros acc U H.
    - destruct H as [->|(e & [] & _)]. reflexivity.
    - cbn [fold_left snd fst]. apply IH; [intros; eapply U; [right; eassumption|assumption]|].
      destruct (cmem e' n) eqn:C; [left; f_equal; eapply U; [left; reflexivity|exact C]|].
      destruct H as [->|(e & [E|I] & C')]; [left; reflexivity| |right; exists e; tauto]. injection E as <- <-. congruence. }
  apply G; [exact U|]. right. exists e. tauto.
Qed.
Lemma mux_of_none (mv : mux_values) n : (forall k e, In (k, e) mv -> cmem e n = false) -> mux_of mv n = None.
Proof.
  unfold mux_of. intros H. assert (G : forall (l : mux_values) acc, (forall k e, In (k, e) l -> cmem e n = false) ->
    fold_left (fun acc p => if cmem (snd p) n then Some (fst p) else acc) l acc = acc).
  { clear. induction l as [|[k e] l IH]; intros acc H; [reflexivity|]. cbn [fold_left snd]. rewrite (H k e) by (left; reflexivity). apply IH. intros; eapply H; right; eassumption. }
  apply G, H.
Qed.
(** The multiplexer and the ids of a signal, from a list with one entry for each signal *)
Lemma nest_mux (l : list (chars * (chars * list Z))) n : NoDup (map (fun x => fst (snd x)) l) ->
  mux_of (nest chars_eqb l) n = option_map fst (find (fun x => chars_eqb (fst (snd x)) n) l).
Proof.
  intros N. pose proof (nest_nodup l) as NN.
  assert (IN : forall k e a, In (k, e) (nest chars_eqb l) -> cget e n = Some a -> In (k, (n, a)) l).
  { intros k e a I G. apply (in_get _ cspec) in I; [|exact NN]. pose proof (nest_entry l k n N) as E. unfold cget at 1 in E. rewrite I in E. rewrite G in E.
    symmetry in E. apply (get_in _ cspec) in E. apply pick_in in E. exact E. }
  destruct (find (fun x => chars_eqb (fst (snd x)) n) l) as [(k & n' & a)|] eqn:Fd; cbn [option_map fst].
  - apply find_some in Fd. destruct Fd as [I E]. cbn [fst snd] in E. destruct (cspec n' n) as [->|]; [|discriminate E].
    pose proof (nest_entry l k n N) as G. assert (P : cget (pick k l) n = Some a). { apply (in_get _ cspec); [apply pick_nodup, N|apply pick_in, I]. }
    rewrite P in G. destruct (cget (nest chars_eqb l) k) as [e|] eqn:C; [|discriminate G].
    apply (mux_of_last _ _ k e); [exact NN|apply (get_in _ cspec), C| |].
    + apply (mem_true _ cspec). apply (get_in_keys _ cspec). exists a. exact G.
    + intros k' e' I' C'. apply (mem_true _ cspec), (get_in_keys _ cspec) in C'. destruct C' as [a' G']. specialize (IN k' e' a' I' G').
      pose proof (NoDup_map_inj (fun x : chars * (chars * list Z) => fst (snd x)) l _ _ N IN I eq_refl) as E'. congruence.
  - apply mux_of_none. intros k e I. destruct (cmem e n) eqn:C; [|reflexivity]. exfalso.
    apply (mem_true _ cspec), (get_in_keys _ cspec) in C. destruct C as [a G]. specialize (IN k e a I G).
    apply (find_none _ _ Fd) in IN. cbn [fst snd] in IN. destruct (cspec n n); congruence.
Qed.
