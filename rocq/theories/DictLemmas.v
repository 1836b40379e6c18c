(** DictLemmas: the usual laws of dictionaries, sorting and [mapM]/[foldM]. *)
From Verif Require Import Base.
From Coq Require Import Sorting.Permutation Sorting.Sorted.

Section Dict.
  Context {K V : Type} (eqb : K -> K -> bool).
  Context (eqb_spec : forall a b, reflect (a = b) (eqb a b)).

  Notation get := (@dget K V eqb).
  Notation set := (@dset K V eqb).
  Notation upd := (@dupdate K V eqb).
  Notation del := (@ddel K V eqb).

  Lemma eqb_refl' k : eqb k k = true.
  Proof. destruct (eqb_spec k k); congruence. Qed.

  Lemma get_set d k v k' : get (set d k v) k' = if eqb k k' then Some v else get d k'.
  Proof.
    induction d as [|[k0 v0] d IH]; cbn.
    - reflexivity.
    - destruct (eqb_spec k0 k) as [->|N]; cbn.
      + destruct (eqb_spec k k'); reflexivity.
      + rewrite IH. destruct (eqb_spec k0 k') as [->|]; [|reflexivity].
        destruct (eqb_spec k k') as [->|]; congruence.
  Qed.

  Lemma get_app d e k : get (d ++ e) k = match get d k with Some v => Some v | None => get e k end.
  Proof. induction d as [|[k0 v0] d IH]; cbn; [reflexivity|]. destruct (eqb k0 k); auto. Qed.

  Lemma get_in d k v : get d k = Some v -> In (k, v) d.
  Proof.
    induction d as [|[k0 v0] d IH]; cbn; [discriminate|].
    destruct (eqb_spec k0 k) as [->|]; [intros [= ->]; now left|]. intros; right; auto.
  Qed.

  Lemma get_in_keys d k : (exists v, get d k = Some v) <-> In k (map fst d).
  Proof.
    induction d as [|[k0 v0] d IH]; cbn.
    - split; [intros [? [=]]|intros []].
    - destruct (eqb_spec k0 k) as [->|N].
      + split; [now left|]. intros _. eauto.
      + rewrite IH. split; [now right|]. intros [?|]; [congruence|assumption].
  Qed.

  Lemma get_none d k : get d k = None <-> ~ In k (map fst d).
  Proof.
    rewrite <- get_in_keys. destruct (get d k) as [v|]; split; intros H.
    - discriminate.
    - exfalso; apply H; eauto.
    - intros [? [=]].
    - reflexivity.
  Qed.

  Lemma in_get d k v : NoDup (map fst d) -> In (k, v) d -> get d k = Some v.
  Proof.
    induction d as [|[k0 v0] d IH]; cbn; intros ND HI; [contradiction|].
    inversion ND as [|? ? N1 N2]; subst.
    destruct HI as [[= -> ->]|HI]; [now rewrite eqb_refl'|].
    destruct (eqb_spec k0 k) as [->|]; [|auto].
    exfalso. apply N1. apply (in_map fst) in HI. exact HI.
  Qed.

  Lemma set_new d k v : ~ In k (map fst d) -> set d k v = d ++ [(k, v)].
  Proof.
    induction d as [|[k0 v0] d IH]; cbn; intros H; [reflexivity|].
    destruct (eqb_spec k0 k) as [->|]; [exfalso; apply H; now left|].
    rewrite IH; [reflexivity|]. intros ?; apply H; now right.
  Qed.

  Lemma set_keys_old d k v : In k (map fst d) -> map fst (set d k v) = map fst d.
  Proof.
    induction d as [|[k0 v0] d IH]; cbn; intros H; [contradiction|].
    destruct (eqb_spec k0 k) as [->|]; cbn; [reflexivity|].
    f_equal. apply IH. destruct H; congruence.
  Qed.

  Lemma set_keys_in d k v k' : In k' (map fst (set d k v)) <-> k' = k \/ In k' (map fst d).
  Proof.
    rewrite <- !get_in_keys. rewrite get_set. destruct (eqb_spec k k') as [->|N].
    - split; [now left|eauto].
    - split; [intros; now right|]. intros [|]; [congruence|assumption].
  Qed.

  Lemma set_nodup d k v : NoDup (map fst d) -> NoDup (map fst (set d k v)).
  Proof.
    intros H. destruct (get d k) as [x|] eqn:E.
    - rewrite set_keys_old; [assumption|]. apply get_in_keys; eauto.
    - apply get_none in E. rewrite set_new by assumption. rewrite map_app. cbn.
      apply Permutation_NoDup with (k :: map fst d); [apply Permutation_cons_append|].
      now constructor.
  Qed.

  Lemma upd_nodup e : forall d, NoDup (map fst d) -> NoDup (map fst (upd d e)).
  Proof.
    induction e as [|[k v] e IH]; intros d H; [exact H|].
    apply IH. now apply set_nodup.
  Qed.

  Lemma upd_cons d k v e : upd d ((k, v) :: e) = upd (set d k v) e.
  Proof. reflexivity. Qed.

  Lemma get_upd e : forall d k, NoDup (map fst e) ->
    get (upd d e) k = match get e k with Some v => Some v | None => get d k end.
  Proof.
    induction e as [|[k0 v0] e IH]; intros d k H; [reflexivity|].
    inversion H as [|? ? N1 N2]; subst. rewrite upd_cons, IH by assumption. cbn. rewrite get_set.
    destruct (eqb_spec k0 k) as [->|]; [|reflexivity].
    apply get_none in N1. now rewrite N1.
  Qed.

  Lemma upd_keys_in e : forall d k, In k (map fst (upd d e)) <-> In k (map fst e) \/ In k (map fst d).
  Proof.
    induction e as [|[k0 v0] e IH]; intros d k; cbn [map fst In].
    - cbn. tauto.
    - rewrite upd_cons, IH, set_keys_in. intuition congruence.
  Qed.

  Lemma upd_app e : forall d, NoDup (map fst (d ++ e)) -> upd d e = d ++ e.
  Proof.
    induction e as [|[k0 v0] e IH]; intros d H; [now rewrite app_nil_r|].
    rewrite upd_cons.
    rewrite map_app in H. cbn [map fst] in H.
    assert (N := NoDup_remove_2 _ _ _ H). rewrite in_app_iff in N.
    rewrite set_new by tauto. rewrite IH; [now rewrite <- app_assoc|].
    rewrite <- app_assoc. cbn. now rewrite map_app.
  Qed.

  Lemma get_del d k k' : NoDup (map fst d) ->
    get (del d k) k' = if eqb k k' then None else get d k'.
  Proof.
    induction d as [|[k0 v0] d IH]; cbn; intros ND.
    - now destruct (eqb k k').
    - inversion ND as [|? ? N1 N2]; subst.
      destruct (eqb_spec k0 k) as [->|N].
      + destruct (eqb_spec k k') as [->|]; [|reflexivity]. now apply get_none in N1.
      + cbn. rewrite IH by assumption. destruct (eqb_spec k0 k') as [->|]; [|reflexivity].
        destruct (eqb_spec k k'); congruence.
  Qed.

  Lemma del_keys_incl d k x : In x (map fst (del d k)) -> In x (map fst d).
  Proof.
    induction d as [|[k0 v0] d IH]; cbn; [tauto|].
    destruct (eqb k0 k); cbn; [now right|]. intros [|]; auto.
  Qed.

  Lemma del_nodup d k : NoDup (map fst d) -> NoDup (map fst (del d k)).
  Proof.
    induction d as [|[k0 v0] d IH]; cbn; intros ND; [assumption|].
    inversion ND as [|? ? N1 N2]; subst. destruct (eqb k0 k); cbn; [assumption|].
    constructor; [|auto]. intros H. apply N1. eapply del_keys_incl; eauto.
  Qed.

  Lemma mem_true (d : list (K * V)) k : dmem eqb d k = true <-> In k (map fst d).
  Proof.
    unfold dmem. rewrite <- get_in_keys. destruct (get d k); split; eauto; try discriminate.
    intros [? [=]].
  Qed.

  (** Dictionaries that agree as maps and have unique keys are permutations of each other. *)
  Lemma get_ext_perm d e : NoDup (map fst d) -> NoDup (map fst e) ->
    (forall k, get d k = get e k) -> Permutation d e.
  Proof.
    intros Hd He H. apply NoDup_Permutation.
    - now apply NoDup_map_inv in Hd.
    - now apply NoDup_map_inv in He.
    - intros [k v]. split; intros HI.
      + apply get_in. rewrite <- H. now apply in_get.
      + apply get_in. rewrite H. now apply in_get.
  Qed.
End Dict.

Definition sspec := String.eqb_spec.
Definition zspec := Z.eqb_spec.

(** ** mapM and foldM *)
Lemma mapM_ok {A B} (f : A -> result B) l out :
  mapM f l = Ok out <-> Forall2 (fun x y => f x = Ok y) l out.
Proof.
  revert out. induction l as [|x l IH]; intros out; cbn.
  - split; [intros [= <-]; constructor|]. inversion 1; reflexivity.
  - destruct (f x) as [y|] eqn:E; cbn.
    + destruct (mapM f l) as [ys|] eqn:E2; cbn.
      * split.
        -- intros [= <-]. constructor; [assumption|]. now apply IH.
        -- inversion 1; subst. f_equal. f_equal; [congruence|].
           assert (Ok ys = Ok l'); [now apply IH|congruence].
      * split; [discriminate|]. inversion 1; subst. apply IH in H4. discriminate.
    + split; [discriminate|]. inversion 1; subst. congruence.
Qed.

Lemma mapM_ok_ex {A B} (f : A -> result B) l :
  (exists out, mapM f l = Ok out) <-> Forall (fun x => exists y, f x = Ok y) l.
Proof.
  split.
  - intros [out H]. apply mapM_ok in H. induction H; constructor; eauto.
  - induction 1 as [|x l [y Hy] _ [out IH]]; cbn; [eauto|]. rewrite Hy; cbn. rewrite IH; cbn. eauto.
Qed.

Lemma mapM_ext_in {A B} (f g : A -> result B) l :
  (forall x, In x l -> f x = g x) -> mapM f l = mapM g l.
Proof.
  induction l as [|x l IH]; intros H; cbn; [reflexivity|].
  rewrite H by now left. rewrite IH; [reflexivity|]. intros; apply H; now right.
Qed.

Lemma bind_ok {A B} (x : result A) (f : A -> result B) b :
  bind x f = Ok b <-> exists a, x = Ok a /\ f a = Ok b.
Proof.
  destruct x; cbn; split; [eauto| |discriminate|].
  - now intros (a' & [= <-] & H).
  - now intros (a' & [=] & H).
Qed.

(** ** Sorting *)
Section Sort.
  Context {A : Type} (leb : A -> A -> bool).

  Lemma insert_perm x l : Permutation (insert_sorted leb x l) (x :: l).
  Proof.
    induction l as [|y l IH]; cbn; [reflexivity|].
    destruct (leb x y); [reflexivity|]. rewrite IH. apply perm_swap.
  Qed.
  Lemma sorted_py_perm l : Permutation (sorted_py leb l) l.
  Proof.
    induction l as [|x l IH]; cbn; [reflexivity|]. fold (sorted_py leb l).
    rewrite insert_perm. now constructor.
  Qed.

  Context (total : forall x y, leb x y = false -> leb y x = true).
  Context (trans : forall x y z, leb x y = true -> leb y z = true -> leb x z = true).

  Lemma insert_sorted_sorted x l :
    StronglySorted (fun a b => leb a b = true) l ->
    StronglySorted (fun a b => leb a b = true) (insert_sorted leb x l).
  Proof.
    induction 1 as [|y l HS IH HF]; cbn.
    - repeat constructor.
    - destruct (leb x y) eqn:E.
      + constructor; [now constructor|]. constructor; [assumption|].
        eapply Forall_impl; [|exact HF]. cbn. intros z Hz. eapply trans; eauto.
      + constructor; [assumption|].
        rewrite Forall_forall in *. intros z Hz.
        apply (Permutation_in _ (insert_perm x l)) in Hz. destruct Hz as [<-|Hz]; auto.
  Qed.
  Lemma sorted_py_sorted l : StronglySorted (fun a b => leb a b = true) (sorted_py leb l).
  Proof.
    induction l as [|x l IH]; cbn; [constructor|]. now apply insert_sorted_sorted.
  Qed.
End Sort.

Lemma StronglySorted_filter {A} (R : A -> A -> Prop) (p : A -> bool) l :
  StronglySorted R l -> StronglySorted R (filter p l).
Proof.
  induction 1 as [|x l HS IH HF]; cbn; [constructor|].
  destruct (p x); [|assumption]. constructor; [assumption|].
  rewrite Forall_forall in *. intros y Hy. apply filter_In in Hy. now apply HF.
Qed.

Lemma StronglySorted_FOP {A} (R : A -> A -> Prop) l : StronglySorted R l -> ForallOrdPairs R l.
Proof. induction 1; constructor; auto. Qed.

Lemma NoDup_filter_map {A B} (f : A -> B) (p : A -> bool) l :
  NoDup (map f l) -> NoDup (map f (filter p l)).
Proof.
  induction l as [|x l IH]; cbn; [auto|]. inversion 1 as [|? ? N1 N2]; subst.
  destruct (p x); cbn; [|auto]. constructor; [|auto].
  intros HI. apply N1. apply in_map_iff in HI. destruct HI as (y & Hy & HI).
  apply filter_In in HI. apply in_map_iff. exists y. tauto.
Qed.

Lemma NoDup_map_inj {A B} (f : A -> B) l x y :
  NoDup (map f l) -> In x l -> In y l -> f x = f y -> x = y.
Proof.
  induction l as [|z l IH]; cbn; [contradiction|]. inversion 1 as [|? ? N1 N2]; subst.
  intros [->|Hx] [->|Hy] E; auto.
  - exfalso. apply N1. rewrite E. now apply in_map.
  - exfalso. apply N1. rewrite <- E. now apply in_map.
Qed.
