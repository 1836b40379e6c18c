(** RegexLemmas: how [rmatch] behaves on runs of characters of a class. *)
From Coq Require Import Ascii.
From Verif Require Import Base CSource Regex.
Local Open Scope list_scope.

(** ** First characters *)
Fixpoint nullable (r : re) : bool :=
  match r with
  | Eps | Star _ _ | Eol => true
  | Chr _ => false
  | Seq a b => nullable a && nullable b
  | Alt a b => nullable a || nullable b
  | Group _ r => nullable r
  end.
Fixpoint rfirst (r : re) (x : ascii) : bool :=
  match r with
  | Eps => false
  | Chr p => p x
  | Seq a b => rfirst a x || (nullable a && rfirst b x)
  | Alt a b => rfirst a x || rfirst b x
  | Star _ r => rfirst r x
  | Group _ r => rfirst r x
  | Eol => Ascii.eqb x newline
  end.

Section Match.
Context {X : Type}.
Implicit Types k : caps -> chars -> option X.

Lemma first_fail : forall r c x s k,
  rfirst r x = false -> (nullable r = true -> forall c', k c' (x :: s) = None) -> rmatch r c (x :: s) k = None.
Proof.
  induction r as [|p|a IHa b IHb|a IHa b IHb|g r IH|n r IH|]; intros c x s k F N; cbn [rfirst nullable rmatch List.length] in F, N |- *.
  - apply N; reflexivity.
  - rewrite F; reflexivity.
  - apply orb_false_iff in F; destruct F as [F1 F2].
    apply IHa; [exact F1|intros NA c'].
    rewrite NA in F2; cbn in F2.
    apply IHb; [exact F2|intros NB c''].
    apply N; rewrite NA, NB; reflexivity.
  - apply orb_false_iff in F; destruct F as [F1 F2].
    rewrite IHa; [apply IHb; [exact F2|]|exact F1|]; intros NB; apply N; rewrite NB; [apply orb_true_r|reflexivity].
  - assert (E : forall K : caps -> chars -> option X, (forall c', K c' (x :: s) = None) -> rmatch r c (x :: s) K = None).
    { intros K HK; apply IH; [exact F|intros _; exact HK]. }
    destruct g.
    + rewrite E; [apply N; reflexivity|].
      intros c'; rewrite Nat.ltb_irrefl; reflexivity.
    + rewrite N by reflexivity.
      apply E; intros c'; rewrite Nat.ltb_irrefl; reflexivity.
  - apply IH; [exact F|intros NR c'; apply N; exact NR].
  - rewrite F; destruct s; [|reflexivity]; reflexivity.
Qed.

Lemma first_reject r c x s k : nullable r = false -> rfirst r x = false -> rmatch r c (x :: s) k = None.
Proof. intros N F; apply first_fail; [exact F|rewrite N; discriminate]. Qed.

Lemma nil_reject : forall r c k, nullable r = false -> rmatch r c [] k = None.
Proof.
  induction r as [|p|a IHa b IHb|a IHa b IHb|g r IH|n r IH|]; intros c k N; cbn in N |- *; try discriminate N.
  - reflexivity.
  - apply andb_false_iff in N; destruct N as [N|N]; [apply IHa; exact N|].
    destruct (nullable a) eqn:NA; [|apply IHa; reflexivity].
    clear IHa.
    assert (G : forall r c (K : caps -> chars -> option X), (forall c', K c' [] = None) -> rmatch r c [] K = None).
    { clear; induction r as [|p|a IHa b IHb|a IHa b IHb|g r IH|n r IH|]; intros c K HK; cbn.
      - apply HK.
      - reflexivity.
      - apply IHa; intros c'; apply IHb; exact HK.
      - rewrite IHa by exact HK; apply IHb; exact HK.
      - apply HK.
      - apply IH; intros c'; apply HK.
      - apply HK. }
    apply G; intros c'; apply IHb; exact N.
  - apply orb_false_iff in N; destruct N as [NA NB]; rewrite IHa by exact NA; apply IHb; exact NB.
  - apply IH; exact N.
Qed.

(** ** Runs *)
Definition head_not (p : ascii -> bool) (s : chars) : Prop := match s with [] => True | x :: _ => p x = false end.

Lemma cstar_cons g p c x s k :
  rmatch (Star g (Chr p)) c (x :: s) k =
  if g then match (if p x then rmatch (Star g (Chr p)) c s k else None) with Some y => Some y | None => k c (x :: s) end
  else match k c (x :: s) with Some y => Some y | None => if p x then rmatch (Star g (Chr p)) c s k else None end.
Proof.
  assert (L : (List.length s <? List.length (x :: s))%nat = true) by (apply Nat.ltb_lt; cbn; lia).
  cbn [rmatch List.length] in *; destruct g; destruct (p x); try rewrite L; reflexivity.
Qed.

Lemma cstar_head g p c s k : head_not p s -> rmatch (Star g (Chr p)) c s k = k c s.
Proof.
  destruct s as [|x s]; intros H; [reflexivity|].
  rewrite cstar_cons; cbn in H; rewrite H; destruct g; [reflexivity|destruct (k c (x :: s)); reflexivity].
Qed.

Lemma cstar_exact g p c w rest k :
  (forall x s, p x = true -> k c (x :: s) = None) -> forallb p w = true -> head_not p rest ->
  rmatch (Star g (Chr p)) c (w ++ rest) k = k c rest.
Proof.
  intros R W H; induction w as [|x w IH]; [apply cstar_head; exact H|].
  cbn in W; apply andb_true_iff in W; destruct W as [WX W].
  cbn [app]; rewrite cstar_cons, WX, R, IH by assumption.
  destruct g; [destruct (k c rest)|]; reflexivity.
Qed.

Lemma cstar_greedy p c w rest k :
  k c rest <> None -> forallb p w = true -> head_not p rest -> rmatch (Star true (Chr p)) c (w ++ rest) k = k c rest.
Proof.
  intros R W H; induction w as [|x w IH]; [apply cstar_head; exact H|].
  cbn in W; apply andb_true_iff in W; destruct W as [WX W].
  cbn [app]; rewrite cstar_cons, WX, IH by assumption.
  destruct (k c rest); [reflexivity|contradiction].
Qed.

Lemma cstar_none g p c w rest k :
  (forall w1 w2, w = w1 ++ w2 -> k c (w2 ++ rest) = None) -> head_not p rest ->
  rmatch (Star g (Chr p)) c (w ++ rest) k = None.
Proof.
  intros R H; induction w as [|x w IH].
  - cbn [app]; rewrite cstar_head by exact H; apply (R [] [] eq_refl).
  - assert (E : rmatch (Star g (Chr p)) c (w ++ rest) k = None).
    { apply IH; intros w1 w2 ->; apply (R (x :: w1) w2 eq_refl). }
    cbn [app]; rewrite cstar_cons, E.
    pose proof (R [] (x :: w) eq_refl) as RX; cbn [app] in RX; rewrite RX.
    destruct g; destruct (p x); reflexivity.
Qed.

Lemma cstar_inv : forall g p c s k y,
  rmatch (Star g (Chr p)) c s k = Some y -> exists w s', s = w ++ s' /\ forallb p w = true /\ k c s' = Some y.
Proof.
  intros g p c s k y; induction s as [|x s IH]; intros E.
  - exists [], []; auto.
  - rewrite cstar_cons in E.
    assert (B : (if p x then rmatch (Star g (Chr p)) c s k else None) = Some y ->
                exists w s', x :: s = w ++ s' /\ forallb p w = true /\ k c s' = Some y).
    { destruct (p x) eqn:PX; [|discriminate].
      intros E'; destruct (IH E') as (w & s' & -> & W & K).
      exists (x :: w), s'; cbn; rewrite PX; auto. }
    assert (A : k c (x :: s) = Some y -> exists w s', x :: s = w ++ s' /\ forallb p w = true /\ k c s' = Some y).
    { intros K; exists [], (x :: s); auto. }
    destruct g.
    + destruct (if p x then rmatch (Star true (Chr p)) c s k else None) eqn:E1; [apply B; congruence|apply A; exact E].
    + destruct (k c (x :: s)) eqn:E1; [apply A; congruence|apply B; exact E].
Qed.

Lemma cstar_some : forall g p c w s k,
  forallb p w = true -> k c s <> None -> rmatch (Star g (Chr p)) c (w ++ s) k <> None.
Proof.
  intros g p c w s k W K; induction w as [|x w IH].
  - cbn [app]; destruct s as [|x s]; [exact K|].
    rewrite cstar_cons; destruct g.
    + destruct (if p x then rmatch (Star true (Chr p)) c s k else None); [discriminate|exact K].
    + destruct (k c (x :: s)); [discriminate|contradiction].
  - cbn in W; apply andb_true_iff in W; destruct W as [WX W].
    cbn [app]; rewrite cstar_cons, WX; specialize (IH W).
    destruct g.
    + destruct (rmatch (Star true (Chr p)) c (w ++ s) k); [discriminate|contradiction].
    + destruct (k c (x :: w ++ s)); [discriminate|exact IH].
Qed.

(** ** Sequences *)
Definition disj (p : ascii -> bool) (r : re) : bool :=
  negb (nullable r) && forallb (fun n => negb (p (ascii_of_nat n) && rfirst r (ascii_of_nat n))) (seq 0 256).

Lemma disj_reject p r x s c k : disj p r = true -> p x = true -> rmatch r c (x :: s) k = None.
Proof.
  intros D P; apply andb_true_iff in D; destruct D as [N D].
  apply negb_true_iff in N; apply first_reject; [exact N|].
  rewrite forallb_forall in D.
  assert (I : In (nat_of_ascii x) (seq 0 256)).
  { apply in_seq; pose proof (nat_ascii_bounded x); lia. }
  apply D in I; rewrite ascii_nat_embedding, P in I; cbn [andb] in I.
  apply negb_true_iff; exact I.
Qed.

Lemma seq_star_exact g p r c w rest k :
  disj p r = true -> forallb p w = true -> head_not p rest ->
  rmatch (Seq (Star g (Chr p)) r) c (w ++ rest) k = rmatch r c rest k.
Proof.
  intros D W H; change (rmatch (Seq (Star g (Chr p)) r) c (w ++ rest) k) with
    (rmatch (Star g (Chr p)) c (w ++ rest) (fun c' s' => rmatch r c' s' k)).
  apply (cstar_exact g p c w rest (fun c' s' => rmatch r c' s' k)); auto.
  intros x s P; apply (disj_reject p); assumption.
Qed.

Lemma seq_plus_exact g p r c w rest k :
  disj p r = true -> w <> [] -> forallb p w = true -> head_not p rest ->
  rmatch (Seq (Plus g (Chr p)) r) c (w ++ rest) k = rmatch r c rest k.
Proof.
  intros D NE W H; destruct w as [|x w]; [contradiction|].
  cbn in W; apply andb_true_iff in W; destruct W as [WX W].
  unfold Plus; cbn [rmatch app]; rewrite WX.
  apply (seq_star_exact g p r c w rest k); assumption.
Qed.

Lemma consumed_app w rest : consumed (w ++ rest) rest = w.
Proof.
  unfold consumed; rewrite app_length.
  replace (List.length w + List.length rest - List.length rest)%nat with (List.length w) by lia.
  rewrite firstn_app, firstn_all, Nat.sub_diag; cbn; apply app_nil_r.
Qed.

Lemma seq_gplus_exact g n p r c w rest k :
  disj p r = true -> w <> [] -> forallb p w = true -> head_not p rest ->
  rmatch (Seq (Group n (Plus g (Chr p))) r) c (w ++ rest) k = rmatch r ((n, w) :: c) rest k.
Proof.
  intros D NE W H; destruct w as [|x w]; [contradiction|].
  cbn in W; apply andb_true_iff in W; destruct W as [WX W].
  unfold Plus; cbn [rmatch app]; rewrite WX.
  etransitivity; [apply (cstar_exact g p c w rest (fun c' s' => rmatch r ((n, consumed (x :: w ++ rest) s') :: c') s' k))|].
  - intros y s P; apply (disj_reject p); assumption.
  - exact W.
  - exact H.
  - cbn beta; change (x :: w ++ rest) with ((x :: w) ++ rest); rewrite consumed_app; reflexivity.
Qed.

Lemma seq_chr p r c x s k : rmatch (Seq (Chr p) r) c (x :: s) k = if p x then rmatch r c s k else None.
Proof. reflexivity. Qed.

Lemma lit_match l c rest k : rmatch (Lit l) c (l ++ rest) k = k c rest.
Proof.
  revert c; induction l as [|x l IH]; intros c; [reflexivity|].
  cbn [Lit app rmatch]; rewrite Ascii.eqb_refl; apply IH.
Qed.
Lemma seq_lit l r c rest k : rmatch (Seq (Lit l) r) c (l ++ rest) k = rmatch r c rest k.
Proof.
  revert c; induction l as [|x l IH]; intros c; [reflexivity|].
  cbn [Lit app rmatch]; rewrite Ascii.eqb_refl; apply IH.
Qed.
End Match.
