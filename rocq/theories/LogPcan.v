(** LogPcan: the PCAN patterns on printed lines. *)
From Coq Require Import Ascii.
From Verif Require Import Base CSource Regex RegexLemmas Logreader LogSpec LogProofs.
Local Open Scope string_scope.
Local Open Scope Z_scope.
Local Open Scope list_scope.

Lemma run_cons (p : ascii -> bool) x w : p x = true -> forallb p w = true -> run p (x :: w).
Proof. intros X W; split; [discriminate|]; cbn; rewrite X; exact W. Qed.

(** The run is consumed entirely, because the continuation fails everywhere else. *)
Lemma cstar_last {X} g p c w rest (k : caps -> chars -> option X) :
  (forall u x v, w = u ++ x :: v -> k c (x :: v ++ rest) = None) -> forallb p w = true -> head_not p rest ->
  rmatch (Star g (Chr p)) c (w ++ rest) k = k c rest.
Proof.
  intros R W H; induction w as [|x w IH]; [apply cstar_head; exact H|].
  cbn in W; apply andb_true_iff in W; destruct W as [WX W].
  cbn [app]; rewrite cstar_cons, WX, (R [] x w eq_refl), IH; [|intros u y v ->; apply (R (x :: u) y v eq_refl)|exact W].
  destruct g; [destruct (k c rest)|]; reflexivity.
Qed.

Lemma run_app_inv (p : ascii -> bool) w1 w2 : forallb p (w1 ++ w2) = true -> forallb p w1 = true /\ forallb p w2 = true.
Proof. rewrite forallb_app; apply andb_true_iff. Qed.

Definition ts_re : re := seqs [dig1; Chr dot; dig1].
Lemma digit_dot x : is_digit x = true -> dot x = true.
Proof. intros H; apply digit_hex in H; apply classes in H; apply H. Qed.
Lemma space_dot_newline x : is_digit x = true -> x <> "."%char.
Proof. intros H ->; discriminate. Qed.

(** \d+.\d+ on digits, a point, digits *)
Lemma ts_exact {X} c a b rest (k : caps -> chars -> option X) :
  run is_digit a -> run is_digit b -> head_not is_digit rest ->
  (forall c x s, is_digit x = true \/ x = "."%char -> k c (x :: s) = None) ->
  rmatch ts_re c (a ++ "."%char :: b ++ rest) k = k c rest.
Proof.
  intros [AN A] [BN B] R K.
  destruct a as [|x a]; [contradiction|]; cbn in A; apply andb_true_iff in A; destruct A as [AX A].
  set (k2 := fun c1 s1 => rmatch dig1 c1 s1 k).
  set (k1 := fun c1 s1 => rmatch (Chr dot) c1 s1 k2).
  assert (D : forall c1 w r, run is_digit w -> head_not is_digit r -> k2 c1 (w ++ r) = k c1 r).
  { intros c1 w r [WN W] HR; unfold k2; destruct w as [|y w]; [contradiction|].
    cbn in W; apply andb_true_iff in W; destruct W as [WY W].
    unfold dig1, Plus; cbn [rmatch app]; rewrite WY.
    apply (cstar_exact true is_digit c1 w r k); [|exact W|exact HR].
    intros z s Z; apply K; left; exact Z. }
  assert (N : forall c1 y r, is_digit y = false -> k2 c1 (y :: r) = None).
  { intros c1 y r Y; unfold k2; apply first_reject; [reflexivity|cbn; rewrite Y; reflexivity]. }
  change (rmatch ts_re c ((x :: a) ++ "."%char :: b ++ rest) k) with
    (if is_digit x then rmatch (Star true (Chr is_digit)) c (a ++ "."%char :: b ++ rest) k1 else None).
  rewrite AX, cstar_last; [| |exact A|reflexivity].
  - unfold k1; cbn [rmatch]; change (dot ".") with true; cbv iota.
    apply D; [split; assumption|exact R].
  - intros u y v ->; apply run_app_inv in A; destruct A as [_ A]; cbn in A; apply andb_true_iff in A; destruct A as [AY A].
    unfold k1; cbn [rmatch]; rewrite (digit_dot _ AY).
    destruct v as [|z v]; [apply N; reflexivity|].
    rewrite D; [|split; [discriminate|exact A]|reflexivity].
    apply K; right; reflexivity.
Qed.

(** \d+.\d+ where the digits end before a character that is not a digit *)
Lemma ts_none {X} c d x rest (k : caps -> chars -> option X) :
  forallb is_digit d = true -> is_digit x = false -> (forall c x s, is_digit x = true -> k c (x :: s) = None) ->
  (forall c, k c (x :: rest) = None) ->
  (forall c e s, rest = e ++ s -> run is_digit e -> head_not is_digit s -> k c s = None) ->
  rmatch ts_re c (d ++ x :: rest) k = None.
Proof.
  intros D XD K K1 K3.
  set (k2 := fun c1 s1 => rmatch dig1 c1 s1 k).
  set (k1 := fun c1 s1 => rmatch (Chr dot) c1 s1 k2).
  assert (E : forall c1 w r, run is_digit w -> head_not is_digit r -> k2 c1 (w ++ r) = k c1 r).
  { intros c1 w r [WN W] HR; unfold k2; destruct w as [|y w]; [contradiction|].
    cbn in W; apply andb_true_iff in W; destruct W as [WY W].
    unfold dig1, Plus; cbn [rmatch app]; rewrite WY.
    apply (cstar_exact true is_digit c1 w r k); [|exact W|exact HR].
    intros z s Z; apply K; exact Z. }
  assert (N : forall c1 y r, is_digit y = false -> k2 c1 (y :: r) = None).
  { intros c1 y r Y; unfold k2; apply first_reject; [reflexivity|cbn; rewrite Y; reflexivity]. }
  assert (S : forall c1, k2 c1 rest = None).
  { intros c1.
    assert (SP : exists e s, rest = e ++ s /\ forallb is_digit e = true /\ head_not is_digit s).
    { clear; induction rest as [|y r IH]; [exists [], []; cbn; auto|].
      destruct (is_digit y) eqn:Y; [|exists [], (y :: r); cbn; auto].
      destruct IH as (e & s & -> & F & H); exists (y :: e), s; cbn; rewrite Y; auto. }
    destruct SP as (e & s & -> & F & H).
    destruct e as [|y e].
    - cbn [app]; destruct s as [|y s]; [unfold k2; apply nil_reject; reflexivity|apply N; exact H].
    - rewrite E; [|split; [discriminate|exact F]|exact H].
      apply (K3 c1 (y :: e) s); [reflexivity|split; [discriminate|exact F]|exact H]. }
  destruct d as [|y d].
  - cbn [app]; apply first_reject; [reflexivity|cbn; rewrite XD; reflexivity].
  - cbn in D; apply andb_true_iff in D; destruct D as [DY D].
    change (rmatch ts_re c ((y :: d) ++ x :: rest) k) with
      (if is_digit y then rmatch (Star true (Chr is_digit)) c (d ++ x :: rest) k1 else None).
    rewrite DY; apply cstar_none; [|exact XD].
    intros u v ->; apply run_app_inv in D; destruct D as [_ D].
    destruct v as [|z v]; cbn [app]; unfold k1; cbn [rmatch].
    + destruct (dot x); [apply S|reflexivity].
    + cbn in D; apply andb_true_iff in D; destruct D as [DZ D]; rewrite (digit_dot _ DZ).
      destruct v as [|z2 v]; [apply N; exact XD|].
      rewrite E; [apply K1|split; [discriminate|exact D]|exact XD].
Qed.

Lemma rej {X} p r c x s (k : caps -> chars -> option X) : disj p r = true -> p x = true -> rmatch r c (x :: s) k = None.
Proof. apply disj_reject. Qed.

Definition sd (x : ascii) : bool := is_digit x || Ascii.eqb x ".".
Lemma fixed_ts_exact c a b rest r :
  run is_digit a -> run is_digit b -> head_not is_digit rest -> disj sd r = true ->
  rmatch (Seq fixed_ts r) c (a ++ "."%char :: b ++ rest) fin = rmatch r (("timestamp"%string, seconds_text a b) :: c) rest fin.
Proof.
  intros A B R D.
  set (s := a ++ "."%char :: b ++ rest).
  change (rmatch ts_re c s (fun c1 s1 => rmatch r (("timestamp"%string, consumed s s1) :: c1) s1 fin) = rmatch r (("timestamp"%string, seconds_text a b) :: c) rest fin).
  unfold s at 1; rewrite ts_exact; auto.
  - replace s with (seconds_text a b ++ rest) by (unfold s, seconds_text; rewrite <- app_assoc; reflexivity).
    rewrite consumed_app; reflexivity.
  - intros c1 x s1 H; apply (rej sd); [exact D|]; unfold sd; destruct H as [ -> | -> ]; reflexivity.
Qed.
Lemma fixed_ts_none c d x rest r :
  forallb is_digit d = true -> is_digit x = false -> disj is_digit r = true ->
  (forall c, rmatch r c (x :: rest) fin = None) ->
  (forall c e s, rest = e ++ s -> run is_digit e -> head_not is_digit s -> rmatch r c s fin = None) ->
  rmatch (Seq fixed_ts r) c (d ++ x :: rest) fin = None.
Proof.
  intros D XD DJ K1 K3.
  set (s := d ++ x :: rest).
  change (rmatch ts_re c s (fun c1 s1 => rmatch r (("timestamp"%string, consumed s s1) :: c1) s1 fin) = None).
  apply ts_none; auto.
  - intros c1 y s1 H; apply (rej is_digit); assumption.
  - intros c1 e s1 E1 E2 E3; apply (K3 _ e); assumption.
Qed.

(** ** Prefixes *)
Lemma v1_prefix w0 idx wt a b w1 rest r :
  forallb is_space w0 = true -> run is_digit idx -> forallb is_space wt = true -> run is_digit a -> run is_digit b -> blank w1 ->
  head_not is_space rest -> disj is_space r = true ->
  rmatch (Seq sp0l (Seq dig1 (Seq (ch ")") (Seq sp0l (Seq fixed_ts (Seq sp1 r)))))) []
    (w0 ++ idx ++ ")"%char :: wt ++ a ++ "."%char :: b ++ w1 ++ rest) fin = rmatch r [("timestamp"%string, seconds_text a b)] rest fin.
Proof.
  intros W0 I WT A B W1 R D.
  unfold sp0l at 1; rewrite seq_star_exact; [|vm_compute; reflexivity|exact W0|eapply run_head; [exact I|exact digit_space]].
  unfold dig1 at 1; rewrite seq_plus_exact; [|vm_compute; reflexivity|apply I|apply I|reflexivity].
  unfold ch at 1; rewrite seq_chr; change (is_char ")" ")") with true; cbv iota.
  unfold sp0l at 1; rewrite seq_star_exact; [|vm_compute; reflexivity|exact WT|eapply run_head; [exact A|exact digit_space]].
  rewrite fixed_ts_exact; [|exact A|exact B|apply blank_head; [exact W1|exact space_digit]|vm_compute; reflexivity].
  unfold sp1; rewrite seq_plus_exact; [reflexivity|exact D|apply W1|apply W1|exact R].
Qed.

Lemma digits_word d : forallb is_digit d = true -> forallb is_word d = true.
Proof. rewrite !forallb_forall; intros H x X; apply H in X; apply digit_hex in X; apply classes in X; apply X. Qed.
Lemma hex_word d : forallb hex_upper d = true -> forallb is_word d = true.
Proof. rewrite !forallb_forall; intros H x X; apply H in X; apply classes in X; apply X. Qed.

(** Version 2: index and timestamp are only separated by white space. *)
Lemma v2_prefix w0 idx wt a b w1 rest r n :
  forallb is_space w0 = true -> run is_digit idx -> blank wt -> run is_digit a -> run is_digit b -> blank w1 ->
  head_not is_space rest ->
  rmatch (Seq sp0l (Seq dig1l (Seq sp0l (Seq fixed_ts (Seq sp1 (Seq (word n) (Seq sp1 r))))))) []
    (w0 ++ idx ++ wt ++ a ++ "."%char :: b ++ w1 ++ rest) fin = rmatch (Seq (word n) (Seq sp1 r)) [("timestamp"%string, seconds_text a b)] rest fin.
Proof.
  intros W0 I WT A B W1 R.
  assert (DW : disj is_space (Seq (word n) (Seq sp1 r)) = true) by reflexivity.
  unfold sp0l at 1; rewrite seq_star_exact; [|reflexivity|exact W0|eapply run_head; [exact I|exact digit_space]].
  destruct I as [IN I]; destruct idx as [|x idx]; [contradiction|]; cbn in I; apply andb_true_iff in I; destruct I as [IX I].
  set (q := Seq sp0l (Seq fixed_ts (Seq sp1 (Seq (word n) (Seq sp1 r))))).
  unfold dig1l, Plus; cbn [app].
  change (rmatch (Seq (Seq (Chr is_digit) (Star false (Chr is_digit))) q) [] (x :: idx ++ wt ++ a ++ "."%char :: b ++ w1 ++ rest) fin)
    with (if is_digit x then rmatch (Star false (Chr is_digit)) [] (idx ++ wt ++ a ++ "."%char :: b ++ w1 ++ rest) (fun c1 s1 => rmatch q c1 s1 fin) else None).
  rewrite IX, cstar_last; [| |exact I|apply blank_head; [exact WT|exact space_digit]].
  - unfold q, sp0l; rewrite seq_star_exact; [|reflexivity|apply WT|eapply run_head; [exact A|exact digit_space]].
    rewrite fixed_ts_exact; [|exact A|exact B|apply blank_head; [exact W1|exact space_digit]|reflexivity].
    unfold sp1 at 1; rewrite seq_plus_exact; [reflexivity|exact DW|apply W1|apply W1|exact R].
  - intros u y v ->; apply run_app_inv in I; destruct I as [_ I].
    unfold q.
    change (y :: v ++ wt ++ a ++ "."%char :: b ++ w1 ++ rest) with ([] ++ (y :: v) ++ wt ++ a ++ "."%char :: b ++ w1 ++ rest).
    unfold sp0l; rewrite seq_star_exact; [|reflexivity|reflexivity|cbn in I |- *; apply andb_true_iff in I; apply digit_space, I].
    destruct wt as [|z wt]; [destruct WT; contradiction|].
    assert (Z : is_space z = true /\ forallb is_space wt = true) by (destruct WT as [_ WT]; cbn in WT; apply andb_true_iff in WT; exact WT).
    destruct Z as [Z WT'].
    cbn [app]; apply (fixed_ts_none [] (y :: v)); [exact I|apply space_digit, Z|reflexivity| |].
    + intros c1.
      change (z :: wt ++ a ++ "."%char :: b ++ w1 ++ rest) with ((z :: wt) ++ a ++ "."%char :: b ++ w1 ++ rest).
      unfold sp1 at 1; rewrite seq_plus_exact; [|exact DW|apply WT|apply WT|eapply run_head; [exact A|exact digit_space]].
      unfold word; rewrite seq_gplus_exact; [|reflexivity|apply A|apply digits_word, A|reflexivity].
      apply first_reject; reflexivity.
    + intros c1 e s E [EN EE] H.
      assert (S : exists y s', s = y :: s' /\ is_space y = false).
      { destruct wt as [|z2 wt].
        - cbn [app] in E; clear - E EE A H.
          revert e E EN EE H || idtac.
          assert (G : forall a e, forallb is_digit a = true -> a ++ "."%char :: b ++ w1 ++ rest = e ++ s -> forallb is_digit e = true -> head_not is_digit s ->
                      exists s', s = "."%char :: s').
          { clear; induction a as [|p a IH]; intros e A E EE H.
            - destruct e as [|q e]; [cbn in E; eexists; symmetry; exact E|].
              cbn in E; injection E as <- _; discriminate EE.
            - cbn in A; apply andb_true_iff in A; destruct A as [AP A].
              destruct e as [|q1 e].
              + cbn in E; subst s; cbn in H; congruence.
              + cbn in E; injection E as _ E; cbn in EE; apply andb_true_iff in EE; apply (IH e A E (proj2 EE) H). }
          destruct (G a e (proj2 A) E EE H) as [s' ->]; eexists; eexists; split; [reflexivity|reflexivity].
        - exfalso; destruct e as [|q1 e]; [contradiction|].
          cbn in E; injection E as <- _; cbn in EE, WT'; apply andb_true_iff in EE, WT'.
          destruct EE as [EE _]; destruct WT' as [WT' _]; rewrite (space_digit _ WT') in EE; discriminate. }
      destruct S as (y2 & s' & -> & Y2).
      apply first_reject; [reflexivity|cbn; rewrite Y2; reflexivity].
Qed.

Lemma v2_reject_paren w0 idx wt rest r :
  forallb is_space w0 = true -> run is_digit idx -> blank wt ->
  rmatch (Seq sp0l (Seq dig1l (Seq sp0l (Seq fixed_ts (Seq sp1 r))))) [] (w0 ++ idx ++ ")"%char :: wt ++ rest) fin = None.
Proof.
  intros W0 I WT.
  unfold sp0l at 1; rewrite seq_star_exact; [|reflexivity|exact W0|eapply run_head; [exact I|exact digit_space]].
  destruct I as [IN I]; destruct idx as [|x idx]; [contradiction|]; cbn in I; apply andb_true_iff in I; destruct I as [IX I].
  set (q := Seq sp0l (Seq fixed_ts (Seq sp1 r))).
  unfold dig1l, Plus; cbn [app].
  change (rmatch (Seq (Seq (Chr is_digit) (Star false (Chr is_digit))) q) [] (x :: idx ++ ")"%char :: wt ++ rest) fin)
    with (if is_digit x then rmatch (Star false (Chr is_digit)) [] (idx ++ ")"%char :: wt ++ rest) (fun c1 s1 => rmatch q c1 s1 fin) else None).
  rewrite IX; apply cstar_none; [|reflexivity].
  intros u v ->; apply run_app_inv in I; destruct I as [_ I].
  change (v ++ ")"%char :: wt ++ rest) with ([] ++ v ++ ")"%char :: wt ++ rest).
  unfold q, sp0l; rewrite seq_star_exact; [|reflexivity|reflexivity|].
  - apply fixed_ts_none; [exact I|reflexivity|reflexivity| |].
    + intros c1; apply first_reject; reflexivity.
    + intros c1 e s E [EN EE] H; exfalso.
      destruct e as [|p e]; [contradiction|].
      destruct WT as [WN WT]; destruct wt as [|z wt]; [contradiction|].
      cbn in E; injection E as <- _; cbn in EE, WT; apply andb_true_iff in EE, WT.
      destruct EE as [EE _]; destruct WT as [WT _]; rewrite (space_digit _ WT) in EE; discriminate.
  - destruct v as [|y v]; [reflexivity|]; cbn in I |- *; apply andb_true_iff in I; apply digit_space, I.
Qed.

(** ** Data columns *)
Definition data_class (c : ascii) : bool := hex_upper c || Ascii.eqb c " ".
Lemma data_text_class l : forallb data_class (data_text l) = true.
Proof.
  induction l as [|[b n] l IH]; [reflexivity|].
  rewrite data_text_cons, hex_fixed2, forallb_app, forallb_app, IH; cbn [forallb]; unfold data_class at 1 2.
  rewrite !hexdigit_upper by (apply Z.mod_pos_bound; lia); cbn.
  rewrite andb_true_r; induction n as [|n IHn]; [reflexivity|exact IHn].
Qed.
Lemma payload_head p : head_not is_space (payload_text p).
Proof.
  destruct p as [[|[b n] l]|]; [exact I| |reflexivity].
  cbn [payload_text]; rewrite data_text_cons, hex_fixed2; cbn [app head_not].
  apply hex_space, hexdigit_upper, Z.mod_pos_bound; lia.
Qed.
Lemma class_match c t : forallb data_class t = true -> rmatch (Seq (Star true (Chr data_class)) Eol) c t fin = Some c.
Proof.
  intros T; rewrite <- (app_nil_r t).
  change (rmatch (Star true (Chr data_class)) c (t ++ []) (fun c1 s1 => rmatch Eol c1 s1 fin) = Some c).
  rewrite cstar_exact; [reflexivity| |exact T|exact I].
  intros x s H; cbn; destruct s; [|reflexivity].
  clear - H; destruct x as [[] [] [] [] [] [] [] []]; try discriminate H; reflexivity.
Qed.
Lemma class_group c t n : forallb data_class t = true -> rmatch (Seq (Group n (Star true (Chr data_class))) Eol) c t fin = Some ((n, t) :: c).
Proof.
  intros T.
  change (rmatch (Star true (Chr data_class)) c t (fun c1 s1 => rmatch Eol ((n, consumed t s1) :: c1) s1 fin) = Some ((n, t) :: c)).
  rewrite <- (app_nil_r t) at 1.
  rewrite cstar_exact; [| |exact T|exact I].
  - rewrite <- (app_nil_r t) at 1; rewrite consumed_app; reflexivity.
  - intros x s H; cbn; destruct s; [|reflexivity].
    clear - H; destruct x as [[] [] [] [] [] [] [] []]; try discriminate H; reflexivity.
Qed.
Lemma pcan_data_match c p : rmatch (Seq pcan_data Eol) c (payload_text p) fin = Some (("can_data"%string, payload_text p) :: c).
Proof.
  destruct p as [l|]; [|reflexivity].
  cbn [payload_text].
  pose proof (class_group c (data_text l) "can_data" (data_text_class l)) as E.
  change (match rmatch (Lit (txt "RTR")) c (data_text l) (fun c1 s1 => rmatch Eol (("can_data"%string, consumed (data_text l) s1) :: c1) s1 fin) with
          | Some y => Some y
          | None => rmatch (Seq (Group "can_data" (Star true (Chr data_class))) Eol) c (data_text l) fin end = Some (("can_data"%string, data_text l) :: c)).
  rewrite E.
  destruct l as [|[b n] l]; [reflexivity|].
  rewrite data_text_cons, hex_fixed2; cbn [app]; rewrite first_reject; [reflexivity|reflexivity|].
  change (Ascii.eqb "R" (hexdigit (b / 16 mod 16)) || false = false); rewrite orb_false_r.
  apply Ascii.eqb_neq; intros X; symmetry in X; revert X; apply hexdigit_neq; [apply Z.mod_pos_bound; lia|reflexivity].
Qed.

Lemma sp1_greedy c w s r c' :
  blank w -> head_not is_space s -> rmatch r c s fin = Some c' -> rmatch (Seq sp1 r) c (w ++ s) fin = Some c'.
Proof.
  intros [WN W] H E; destruct w as [|x w]; [contradiction|]; cbn in W; apply andb_true_iff in W; destruct W as [WX W].
  change (rmatch (Seq sp1 r) c ((x :: w) ++ s) fin) with
    (if is_space x then rmatch (Star true (Chr is_space)) c (w ++ s) (fun c1 s1 => rmatch r c1 s1 fin) else None).
  rewrite WX, cstar_greedy; [exact E|rewrite E; discriminate|exact W|exact H].
Qed.

(** <dlc> <data> of versions 1.x *)
Definition tail1 : re := seqs [dlc1; sp1; pcan_data; Eol].
Lemma tail1_match c d w3 p :
  is_digit d = true -> blank w3 ->
  rmatch tail1 c (d :: w3 ++ payload_text p) fin = Some (("can_data"%string, payload_text p) :: ("dlc"%string, [d]) :: c).
Proof.
  intros D W.
  change (rmatch tail1 c (d :: w3 ++ payload_text p) fin) with
    (if is_digit d then rmatch (Seq sp1 (Seq pcan_data Eol)) (("dlc"%string, consumed (d :: w3 ++ payload_text p) (w3 ++ payload_text p)) :: c) (w3 ++ payload_text p) fin else None).
  rewrite D; change (d :: w3 ++ payload_text p) with ([d] ++ w3 ++ payload_text p); rewrite consumed_app.
  apply sp1_greedy; [exact W|apply payload_head|apply pcan_data_match].
Qed.
(** No single digit stands at the beginning of a data column. *)
Lemma tail1_payload c p r : rmatch (Seq dlc1 (Seq sp1 r)) c (payload_text p) fin = None.
Proof.
  destruct p as [[|[b n] l]|]; [reflexivity| |reflexivity].
  cbn [payload_text]; rewrite data_text_cons, hex_fixed2; cbn [app].
  set (s := hexdigit (b mod 16) :: spaces n ++ data_text l).
  change (rmatch (Seq dlc1 (Seq sp1 r)) c (hexdigit (b / 16 mod 16) :: s) fin) with
    (if is_digit (hexdigit (b / 16 mod 16)) then rmatch (Seq sp1 r) (("dlc"%string, consumed (hexdigit (b / 16 mod 16) :: s) s) :: c) s fin else None).
  destruct (is_digit _); [|reflexivity].
  unfold s at 2; apply first_reject; [reflexivity|].
  change ((is_space (hexdigit (b mod 16)) || false) || false = false); rewrite !orb_false_r.
  apply hex_space, hexdigit_upper, Z.mod_pos_bound; lia.
Qed.
Lemma chan1_payload c p r : rmatch (Seq chan1 (Seq sp1 r)) c (payload_text p) fin = None.
Proof.
  destruct p as [[|[b n] l]|]; [reflexivity| |reflexivity].
  cbn [payload_text]; rewrite data_text_cons, hex_fixed2; cbn [app].
  set (s := hexdigit (b mod 16) :: spaces n ++ data_text l).
  change (rmatch (Seq chan1 (Seq sp1 r)) c (hexdigit (b / 16 mod 16) :: s) fin) with
    (if is_digit (hexdigit (b / 16 mod 16)) then rmatch (Seq sp1 r) (("channel"%string, consumed (hexdigit (b / 16 mod 16) :: s) s) :: c) s fin else None).
  destruct (is_digit _); [|reflexivity].
  unfold s at 2; apply first_reject; [reflexivity|].
  change ((is_space (hexdigit (b mod 16)) || false) || false = false); rewrite !orb_false_r.
  apply hex_space, hexdigit_upper, Z.mod_pos_bound; lia.
Qed.

(** A hexadecimal column inside a data column *)
Lemma data_token l : data_text l = [] \/ (run hex_upper (data_text l)) \/
  exists t n l', data_text l = t ++ spaces (S n) ++ data_text l' /\ run hex_upper t.
Proof.
  induction l as [|[b n] l IH]; [left; reflexivity|right].
  assert (H : run hex_upper (hex_fixed 2 b)) by (split; [discriminate|apply hex_fixed_upper]).
  rewrite data_text_cons.
  destruct n as [|n]; [|right; exists (hex_fixed 2 b), n, l; auto].
  cbn [spaces repeat app].
  destruct IH as [ -> |[R|(t & n & l' & -> & R)]].
  - left; rewrite app_nil_r; exact H.
  - left; split; [discriminate|rewrite forallb_app; rewrite (proj2 H), (proj2 R); reflexivity].
  - right; exists (hex_fixed 2 b ++ t), n, l'; split; [rewrite <- app_assoc; reflexivity|].
    split; [discriminate|rewrite forallb_app; rewrite (proj2 H), (proj2 R); reflexivity].
Qed.

(** If what follows a column and white space fails on data columns, so does the whole. *)
Lemma token_payload c n p r cls :
  (forall x, hex_upper x = true -> cls x = true) -> (forall x, is_space x = true -> cls x = false) ->
  disj cls (Seq sp1 r) = true -> disj is_space r = true ->
  (forall c q, rmatch r c (payload_text q) fin = None) ->
  rmatch (Seq (Group n (Plus true (Chr cls))) (Seq sp1 r)) c (payload_text p) fin = None.
Proof.
  intros CH CS D1 D2 H.
  assert (SP : forall m, blank (spaces (S m))).
  { intros m; split; [discriminate|]; induction m as [|m IH]; [reflexivity|exact IH]. }
  assert (CL : forall t, forallb hex_upper t = true -> forallb cls t = true).
  { intros t; rewrite !forallb_forall; auto. }
  assert (EN : forall c', rmatch (Seq sp1 r) c' [] fin = None) by (intros; apply nil_reject; reflexivity).
  destruct p as [l|]; cbn [payload_text].
  - destruct (data_token l) as [E|[R|(t & m & l' & E & R)]].
    + rewrite E; apply nil_reject; reflexivity.
    + rewrite <- (app_nil_r (data_text l)), seq_gplus_exact; [apply EN|exact D1|apply R|apply CL, R|exact I].
    + rewrite E, seq_gplus_exact; [|exact D1|apply R|apply CL, R|apply blank_head; [apply SP|exact CS]].
      unfold sp1; rewrite seq_plus_exact; [apply (H _ (Bytes l'))|exact D2|apply SP|apply SP|apply (payload_head (Bytes l'))].
  - destruct (cls "R"%char) eqn:CR.
    + destruct (cls "T"%char) eqn:CT.
      * rewrite <- (app_nil_r (txt "RTR")), seq_gplus_exact; [apply EN|exact D1|discriminate|cbn; rewrite CR, CT; reflexivity|exact I].
      * change (txt "RTR") with (["R"%char] ++ ["T"%char; "R"%char]).
        rewrite seq_gplus_exact; [|exact D1|discriminate|cbn; rewrite CR; reflexivity|exact CT].
        apply first_reject; reflexivity.
    + apply first_reject; [reflexivity|].
      change ((cls "R"%char || false) || false = false); rewrite CR; reflexivity.
Qed.

(** ** Whole lines *)
Lemma paren_needed w0 x s r :
  forallb is_space w0 = true -> is_space x = false -> x <> "("%char -> re_match (Seq sp0l (Seq (ch "(") r)) (w0 ++ x :: s) = None.
Proof.
  intros W X N; unfold re_match; fold fin.
  unfold sp0l; rewrite seq_star_exact; [|reflexivity|exact W|exact X].
  unfold ch; rewrite seq_chr; unfold is_char.
  replace (Ascii.eqb "(" x) with false by (symmetry; apply Ascii.eqb_neq; congruence); reflexivity.
Qed.

Ltac fields p OK :=
  destruct p as [w0 idx wt a b w1 chan w2 type w3 ext id w4 rxtx w5 w6 dlc w7 pl];
  unfold pcan_ok in OK; cbn [pc_w0 pc_idx pc_wt pc_a pc_b pc_w1 pc_chan pc_w2 pc_type pc_w3 pc_ext pc_id pc_w4 pc_rxtx pc_w5 pc_w6 pc_dlc pc_w7 pc_payload] in OK;
  destruct OK as (W0 & I & WT & A & B & W1 & CH & W2 & TY & TH & W3 & ID & W4 & RX & W5 & W6 & DL & W7 & PL).
Ltac fold_text :=
  unfold v10_text, v11_text, v12_text, v13_text, v20_text, v21_text, pc_index1, pc_time, pc_end, pc_idt in *;
  cbn [pc_w0 pc_idx pc_wt pc_a pc_b pc_w1 pc_chan pc_w2 pc_type pc_w3 pc_ext pc_id pc_w4 pc_rxtx pc_w5 pc_w6 pc_dlc pc_w7 pc_payload] in *.

Lemma idx_paren_run idx : run is_digit idx -> run non_space (idx ++ [")"%char]).
Proof.
  intros [N D]; split; [intros E; apply app_eq_nil in E; destruct E; discriminate|].
  rewrite forallb_app; apply andb_true_iff; split; [|reflexivity].
  rewrite forallb_forall in D |- *.
  intros x X; unfold non_space; rewrite (digit_space x); auto.
Qed.
Lemma digits_non d : run is_digit d -> run non_space d.
Proof.
  intros [N D]; split; [exact N|]; rewrite forallb_forall in D |- *.
  intros x X; unfold non_space; rewrite (digit_space x); auto.
Qed.
Lemma digits_hex d : forallb is_digit d = true -> forallb hex_upper d = true.
Proof. rewrite !forallb_forall; intros H x X; apply digit_hex, H, X. Qed.
Lemma idt_run ext id : run hex_upper (pcan_id_text ext id).
Proof.
  split; [|apply hex_fixed_upper].
  intros X; apply (f_equal (@List.length ascii)) in X; unfold pcan_id_text in X; rewrite hex_fixed_length in X; destruct ext; discriminate.
Qed.
Lemma idt_two ext id : exists x y t, pcan_id_text ext id = x :: y :: t /\ hex_upper x = true /\ hex_upper y = true.
Proof.
  pose proof (hex_fixed_upper (if ext then 8 else 4) id) as U; fold (pcan_id_text ext id) in U.
  pose proof (hex_fixed_length (if ext then 8 else 4) id) as L; fold (pcan_id_text ext id) in L.
  destruct (pcan_id_text ext id) as [|x [|y t]]; [destruct ext; discriminate..|].
  cbn in U; apply andb_true_iff in U; destruct U as [UX U]; apply andb_true_iff in U; destruct U as [UY U].
  exists x, y, t; auto.
Qed.

(** No candump pattern matches a PCAN line. *)
Lemma index1_no_paren p rest r : pcan_ok p -> re_match (Seq sp0l (Seq (ch "(") r)) (pc_index1 p rest) = None.
Proof.
  intros OK; fields p OK; fold_text.
  destruct I as [IN I]; destruct idx as [|x idx]; [contradiction|]; cbn in I; apply andb_true_iff in I; destruct I as [IX I].
  cbn [app]; apply paren_needed; [exact W0|apply digit_space, IX|intros ->; discriminate IX].
Qed.
Lemma v2_no_paren p rest r : pcan_ok p -> re_match (Seq sp0l (Seq (ch "(") r)) (pc_w0 p ++ pc_idx p ++ rest) = None.
Proof.
  intros OK; fields p OK; fold_text.
  destruct I as [IN I]; destruct idx as [|x idx]; [contradiction|]; cbn in I; apply andb_true_iff in I; destruct I as [IX I].
  cbn [app]; apply paren_needed; [exact W0|apply digit_space, IX|intros ->; discriminate IX].
Qed.
Lemma index1_time_not_default p rest : pcan_ok p -> re_match candump_default (pc_index1 p (pc_time p rest)) = None.
Proof.
  intros OK; fields p OK; fold_text.
  replace (w0 ++ idx ++ ")"%char :: wt ++ a ++ "."%char :: b ++ w1 ++ rest)
    with (w0 ++ (idx ++ [")"%char]) ++ wt ++ a ++ "."%char :: b ++ w1 ++ rest) by (rewrite <- !app_assoc; reflexivity).
  apply default_reject_hex; [exact W0|apply idx_paren_run, I|exact WT|apply digits_hex, A|reflexivity|reflexivity].
Qed.
Lemma v2_not_default p rest : pcan_ok p -> re_match candump_default (pc_w0 p ++ pc_idx p ++ pc_wt p ++ pc_time p rest) = None.
Proof.
  intros OK; fields p OK; fold_text.
  apply default_reject_hex; [exact W0|apply digits_non, I|exact WT|apply digits_hex, A|reflexivity|reflexivity].
Qed.
Lemma index1_not_v2 p rest r : pcan_ok p ->
  re_match (Seq sp0l (Seq dig1l (Seq sp0l (Seq fixed_ts (Seq sp1 r))))) (pc_index1 p rest) = None.
Proof. intros OK; fields p OK; fold_text; apply v2_reject_paren; assumption. Qed.

Lemma detect_index1 p rest : pcan_ok p -> re_match candump_default (pc_index1 p rest) = None ->
  detect (pc_index1 p rest) = find (matches_line (pc_index1 p rest)) [PV13; PV12; PV11; PV10].
Proof.
  intros OK D; unfold detect, all_patterns; cbn [find]; unfold matches_line, pattern_re.
  rewrite D.
  assert (T : re_match candump_timestamped (pc_index1 p rest) = None) by (apply index1_no_paren, OK).
  assert (L : re_match candump_log (pc_index1 p rest) = None) by (apply index1_no_paren, OK).
  assert (N : re_match candump_absolute (pc_index1 p rest) = None) by (apply index1_no_paren, OK).
  assert (V1 : re_match pcan_v21 (pc_index1 p rest) = None) by (apply index1_not_v2, OK).
  assert (V0 : re_match pcan_v20 (pc_index1 p rest) = None) by (apply index1_not_v2, OK).
  rewrite T, L, N, V1, V0; reflexivity.
Qed.

Lemma span_unique (p : ascii -> bool) u v s t :
  forallb p u = true -> forallb p v = true -> head_not p s -> head_not p t -> u ++ s = v ++ t -> u = v /\ s = t.
Proof.
  revert v; induction u as [|x u IH]; intros v U V S T E.
  - destruct v as [|y v]; [auto|].
    cbn in E; subst s; cbn in S, V; rewrite S in V; discriminate.
  - cbn in U; apply andb_true_iff in U; destruct U as [UX U].
    destruct v as [|y v]; cbn in E.
    + subst t; cbn in T; congruence.
    + injection E as <- E; cbn in V; apply andb_true_iff in V; destruct (IH v U (proj2 V) S T E) as [ -> -> ]; auto.
Qed.

Lemma v10_not p r :
  pcan_ok p ->
  (forall c, rmatch (Seq sp1 r) c (pc_w1 p ++ pc_idt p ++ pc_w4 p ++ pc_end p) fin = None) ->
  (forall c, rmatch (Seq sp1 r) c (pc_w4 p ++ pc_end p) fin = None) ->
  re_match (Seq sp0l (Seq dig1 (Seq (ch ")") (Seq sp0l (Seq fixed_ts (Seq sp1 r)))))) (v10_text p) = None.
Proof.
  intros OK H1 H2; unfold re_match; fold fin; fields p OK; fold_text.
  unfold sp0l at 1; rewrite seq_star_exact; [|vm_compute; reflexivity|exact W0|eapply run_head; [exact I|exact digit_space]].
  unfold dig1 at 1; rewrite seq_plus_exact; [|vm_compute; reflexivity|apply I|apply I|reflexivity].
  unfold ch at 1; rewrite seq_chr; change (is_char ")" ")") with true; cbv iota.
  unfold sp0l at 1; rewrite seq_star_exact; [|vm_compute; reflexivity|apply WT|eapply run_head; [exact A|exact digit_space]].
  destruct w1 as [|x w1]; [destruct W1; contradiction|].
  destruct W1 as [_ W1]; cbn in W1; apply andb_true_iff in W1; destruct W1 as [WX W1].
  cbn [app]; apply fixed_ts_none; [apply A|apply space_digit, WX|reflexivity|exact H1|].
  intros c e s E [EN ED] S.
  destruct s as [|y s]; [apply nil_reject; reflexivity|].
  destruct (is_space y) eqn:Y; [|apply first_reject; [reflexivity|cbn; rewrite Y; reflexivity]].
  destruct w1 as [|z w1].
  - cbn [app] in E; apply (span_unique non_space) in E.
    + destruct E as [_ <-]; apply H2.
    + apply forallb_forall; intros q Q; pose proof (proj2 (idt_run ext id)) as U; rewrite forallb_forall in U.
      unfold non_space; rewrite (hex_space q (U q Q)); reflexivity.
    + apply forallb_forall; intros q Q; rewrite forallb_forall in ED; unfold non_space; rewrite (digit_space q (ED q Q)); reflexivity.
    + apply blank_head; [exact W4|exact space_non].
    + apply space_non, Y.
  - exfalso; destruct e as [|q e]; [contradiction|].
    cbn in E; injection E as <- _; cbn in ED, W1; apply andb_true_iff in ED, W1.
    destruct ED as [ED _]; destruct W1 as [W1 _]; rewrite (space_digit _ W1) in ED; discriminate.
Qed.

Lemma sp1_step c w rest r : disj is_space r = true -> blank w -> head_not is_space rest -> rmatch (Seq sp1 r) c (w ++ rest) fin = rmatch r c rest fin.
Proof. intros D W R; unfold sp1; apply seq_plus_exact; [exact D|apply W|apply W|exact R]. Qed.
Lemma digit1_step n c d rest r : is_digit d = true ->
  rmatch (Seq (Group n (Chr is_digit)) r) c (d :: rest) fin = rmatch r ((n, [d]) :: c) rest fin.
Proof.
  intros D.
  change (rmatch (Seq (Group n (Chr is_digit)) r) c (d :: rest) fin) with
    (if is_digit d then rmatch r ((n, consumed (d :: rest) rest) :: c) rest fin else None).
  rewrite D; change (d :: rest) with ([d] ++ rest); rewrite consumed_app; reflexivity.
Qed.
Lemma idt_head ext id rest : head_not is_space (pcan_id_text ext id ++ rest).
Proof. eapply run_head; [apply idt_run|exact hex_space]. Qed.
Lemma word_space x : is_word x = true -> is_space x = false.
Proof. intros H; destruct (is_space x) eqn:S; [|reflexivity]; rewrite (space_word _ S) in H; discriminate. Qed.

Lemma chan_idt c ext id rest r : rmatch (Seq chan1 (Seq sp1 r)) c (pcan_id_text ext id ++ rest) fin = None.
Proof.
  destruct (idt_two ext id) as (x & y & t & -> & X & Y); cbn [app].
  unfold chan1; destruct (is_digit x) eqn:D.
  - rewrite digit1_step by exact D; apply first_reject; [reflexivity|].
    change ((is_space y || false) || false = false); rewrite (hex_space _ Y); reflexivity.
  - apply first_reject; [reflexivity|]; change (is_digit x || false = false); rewrite D; reflexivity.
Qed.

Definition single (p : pcan) : Prop := List.length (pc_dlc p) = 1%nat.

Lemma single_dlc p : pcan_ok p -> single p -> exists d, pc_dlc p = [d] /\ is_digit d = true.
Proof.
  intros OK SG; unfold single in SG; fields p OK; cbn [pc_dlc] in *.
  destruct dlc as [|d [|]]; [discriminate| |discriminate].
  destruct DL as [_ DL]; cbn in DL; rewrite andb_true_r in DL; exists d; auto.
Qed.

(** Version 1.0 *)
Lemma v10_match p : pcan_ok p -> single p ->
  re_match pcan_v10 (v10_text p) =
  Some [("can_data"%string, payload_text (pc_payload p)); ("dlc"%string, pc_dlc p); ("can_id"%string, pc_idt p); ("timestamp"%string, pc_a p)].
Proof.
  intros OK SG; destruct (single_dlc p OK SG) as (d & ED & D).
  unfold re_match; fold fin; fields p OK; fold_text; subst dlc.
  unfold pcan_v10; cbn [seqs].
  unfold sp0l at 1; rewrite seq_star_exact; [|reflexivity|exact W0|eapply run_head; [exact I|exact digit_space]].
  unfold dig1 at 1; rewrite seq_plus_exact; [|reflexivity|apply I|apply I|reflexivity].
  unfold ch at 1; rewrite seq_chr; change (is_char ")" ")") with true; cbv iota.
  unfold sp0l at 1; rewrite seq_star_exact; [|reflexivity|apply WT|eapply run_head; [exact A|exact digit_space]].
  unfold dig1 at 1; rewrite seq_gplus_exact; [|reflexivity|apply A|apply A|apply blank_head; [exact W1|exact space_digit]].
  rewrite sp1_step; [|reflexivity|exact W1|apply idt_head].
  unfold pcan_id; rewrite seq_gplus_exact; [|reflexivity|apply idt_run|apply idt_run|apply blank_head; [exact W4|exact space_hex]].
  cbn [app]; rewrite sp1_step; [|reflexivity|exact W4|apply digit_space, D].
  apply tail1_match; assumption.
Qed.
Lemma v10_detect p : pcan_ok p -> single p -> detect (v10_text p) = Some PV10.
Proof.
  intros OK SG.
  assert (ND : re_match candump_default (v10_text p) = None).
  { fields p OK; fold_text.
    destruct (idt_two ext id) as (x & y & t & -> & X & Y).
    replace (w0 ++ idx ++ ")"%char :: wt ++ a ++ w1 ++ (x :: y :: t) ++ w4 ++ dlc ++ w7 ++ payload_text pl)
      with (w0 ++ (idx ++ [")"%char]) ++ wt ++ a ++ w1 ++ x :: y :: t ++ w4 ++ dlc ++ w7 ++ payload_text pl)
      by (rewrite <- !app_assoc; reflexivity).
    apply default_reject; auto; [apply idx_paren_run, I|apply digits_non, A]. }
  unfold v10_text in *; rewrite detect_index1 by assumption; fold (v10_text p) in *.
  cbn [find]; unfold matches_line, pattern_re.
  destruct (single_dlc p OK SG) as (d & ED & D).
  assert (T : forall c n q r, disj is_word (Seq sp1 r) = true -> disj is_space r = true ->
              (forall c q, rmatch r c (payload_text q) fin = None) -> rmatch (Seq (word n) (Seq sp1 r)) c (payload_text q) fin = None).
  { intros c n q r D1 D2 H; apply token_payload; auto; [intros x X; apply classes in X; apply X|exact space_word]. }
  assert (T2 : forall c q r, disj hex_upper (Seq sp1 r) = true -> disj is_space r = true ->
              (forall c q, rmatch r c (payload_text q) fin = None) -> rmatch (Seq pcan_id (Seq sp1 r)) c (payload_text q) fin = None).
  { intros c q r D1 D2 H; apply token_payload; auto; exact space_hex. }
  assert (V13 : re_match pcan_v13 (v10_text p) = None).
  { apply v10_not; [exact OK| |]; fields p OK; fold_text; intros c.
    - rewrite sp1_step; [apply chan_idt|reflexivity|exact W1|apply idt_head].
    - rewrite ED; cbn [app]; rewrite sp1_step; [|reflexivity|exact W4|apply digit_space, D].
      unfold chan1; rewrite digit1_step by exact D.
      rewrite sp1_step; [|reflexivity|exact W7|apply payload_head].
      apply T; [reflexivity|reflexivity|]; intros c1 q; apply T2; [reflexivity|reflexivity|].
      intros c2 q2; pose proof (payload_head q2); destruct q2 as [[|[b2 n2] l2]|]; [reflexivity| |reflexivity].
      cbn [payload_text]; rewrite data_text_cons, hex_fixed2; cbn [app]; apply first_reject; [reflexivity|].
      change (Ascii.eqb "-" (hexdigit (b2 / 16 mod 16)) || false = false); rewrite orb_false_r.
      apply Ascii.eqb_neq; intros X; symmetry in X; revert X; apply hexdigit_neq; [apply Z.mod_pos_bound; lia|reflexivity]. }
  assert (V12 : re_match pcan_v12 (v10_text p) = None).
  { apply v10_not; [exact OK| |]; fields p OK; fold_text; intros c.
    - rewrite sp1_step; [apply chan_idt|reflexivity|exact W1|apply idt_head].
    - rewrite ED; cbn [app]; rewrite sp1_step; [|reflexivity|exact W4|apply digit_space, D].
      unfold chan1; rewrite digit1_step by exact D.
      rewrite sp1_step; [|reflexivity|exact W7|apply payload_head].
      apply T; [reflexivity|reflexivity|]; intros c1 q; apply T2; [reflexivity|reflexivity|].
      intros c2 q2; apply tail1_payload. }
  assert (V11 : re_match pcan_v11 (v10_text p) = None).
  { apply v10_not; [exact OK| |]; fields p OK; fold_text; intros c.
    - rewrite sp1_step; [|reflexivity|exact W1|apply idt_head].
      unfold word; rewrite seq_gplus_exact; [|reflexivity|apply idt_run|apply hex_word, idt_run|apply blank_head; [exact W4|exact space_word]].
      rewrite ED; cbn [app]; rewrite sp1_step; [|reflexivity|exact W4|apply digit_space, D].
      change (d :: w7 ++ payload_text pl) with ([d] ++ w7 ++ payload_text pl).
      unfold pcan_id; rewrite seq_gplus_exact; [|reflexivity|discriminate|cbn; rewrite (digit_hex _ D); reflexivity|apply blank_head; [exact W7|exact space_hex]].
      rewrite sp1_step; [|reflexivity|exact W7|apply payload_head].
      apply tail1_payload.
    - rewrite ED; cbn [app]; rewrite sp1_step; [|reflexivity|exact W4|apply digit_space, D].
      change (d :: w7 ++ payload_text pl) with ([d] ++ w7 ++ payload_text pl).
      unfold word; rewrite seq_gplus_exact; [|reflexivity|discriminate|apply digits_word; cbn; rewrite D; reflexivity|apply blank_head; [exact W7|exact space_word]].
      rewrite sp1_step; [|reflexivity|exact W7|apply payload_head].
      apply T2; [reflexivity|reflexivity|]; intros c2 q2; apply tail1_payload. }
  rewrite V13, V12, V11, (v10_match p OK SG); reflexivity.
Qed.

(** Versions 1.1 to 1.3 *)
Lemma type_head type rest : run is_word type -> head_not is_space (type ++ rest).
Proof. intros T; eapply run_head; [exact T|exact word_space]. Qed.

Lemma type_id c type w3 ext id w4 rest r :
  run is_word type -> blank w3 -> blank w4 -> head_not is_space rest -> disj is_space r = true ->
  rmatch (Seq (word "type") (Seq sp1 (Seq pcan_id (Seq sp1 r)))) c (type ++ w3 ++ pcan_id_text ext id ++ w4 ++ rest) fin =
  rmatch r (("can_id"%string, pcan_id_text ext id) :: ("type"%string, type) :: c) rest fin.
Proof.
  intros TY W3 W4 R D.
  unfold word; rewrite seq_gplus_exact; [|reflexivity|apply TY|apply TY|apply blank_head; [exact W3|exact space_word]].
  rewrite sp1_step; [|reflexivity|exact W3|apply idt_head].
  unfold pcan_id; rewrite seq_gplus_exact; [|reflexivity|apply idt_run|apply idt_run|apply blank_head; [exact W4|exact space_hex]].
  apply sp1_step; assumption.
Qed.

Definition v1_caps (p : pcan) (chan : bool) : caps :=
  [("can_data"%string, payload_text (pc_payload p)); ("dlc"%string, pc_dlc p); ("can_id"%string, pc_idt p); ("type"%string, pc_type p)] ++
  (if chan then [("channel"%string, [pc_chan p])] else []) ++ [("timestamp"%string, seconds_text (pc_a p) (pc_b p))].

Lemma v11_match p : pcan_ok p -> single p -> re_match pcan_v11 (v11_text p) = Some (v1_caps p false).
Proof.
  intros OK SG; destruct (single_dlc p OK SG) as (d & ED & D).
  unfold re_match; fold fin; unfold v1_caps; fields p OK; fold_text; subst dlc.
  unfold pcan_v11; cbn [seqs].
  rewrite v1_prefix; [|exact W0|exact I|apply WT|exact A|exact B|exact W1|apply type_head, TY|reflexivity].
  cbn [app]; rewrite type_id; [|exact TY|exact W3|exact W4|apply digit_space, D|reflexivity].
  apply tail1_match; assumption.
Qed.
Lemma chan_type c type rest r : is_digit (hd "A"%char type) = false -> run is_word type -> rmatch (Seq chan1 r) c (type ++ rest) fin = None.
Proof.
  intros H [N _]; destruct type as [|x t]; [contradiction|].
  apply first_reject; [reflexivity|]; change (is_digit x || false = false); cbn in H; rewrite H; reflexivity.
Qed.
Lemma v11_detect p : pcan_ok p -> single p -> detect (v11_text p) = Some PV11.
Proof.
  intros OK SG.
  unfold v11_text; rewrite detect_index1; [|exact OK|apply index1_time_not_default, OK]; fold (v11_text p).
  cbn [find]; unfold matches_line, pattern_re.
  assert (R : forall r, re_match (Seq sp0l (Seq dig1 (Seq (ch ")") (Seq sp0l (Seq fixed_ts (Seq sp1 (Seq chan1 r))))))) (v11_text p) = None).
  { intros r; unfold re_match; fold fin; fields p OK; fold_text.
    rewrite v1_prefix; [|exact W0|exact I|apply WT|exact A|exact B|exact W1|apply type_head, TY|reflexivity].
    apply chan_type; assumption. }
  assert (V13 : re_match pcan_v13 (v11_text p) = None) by apply R.
  assert (V12 : re_match pcan_v12 (v11_text p) = None) by apply R.
  rewrite V13, V12, (v11_match p OK SG); reflexivity.
Qed.

Lemma chan_prefix w0 idx wt a b w1 chan w2 type w3 ext id w4 rest r :
  forallb is_space w0 = true -> run is_digit idx -> forallb is_space wt = true -> run is_digit a -> run is_digit b -> blank w1 ->
  is_digit chan = true -> blank w2 -> run is_word type -> blank w3 -> blank w4 -> head_not is_space rest -> disj is_space r = true ->
  rmatch (Seq sp0l (Seq dig1 (Seq (ch ")") (Seq sp0l (Seq fixed_ts (Seq sp1 (Seq chan1 (Seq sp1 (Seq (word "type") (Seq sp1 (Seq pcan_id (Seq sp1 r)))))))))))) []
    (w0 ++ idx ++ ")"%char :: wt ++ a ++ "."%char :: b ++ w1 ++ chan :: w2 ++ type ++ w3 ++ pcan_id_text ext id ++ w4 ++ rest) fin =
  rmatch r [("can_id"%string, pcan_id_text ext id); ("type"%string, type); ("channel"%string, [chan]); ("timestamp"%string, seconds_text a b)] rest fin.
Proof.
  intros W0 I WT A B W1 CH W2 TY W3 W4 R D.
  rewrite v1_prefix; [|exact W0|exact I|exact WT|exact A|exact B|exact W1|apply digit_space, CH|reflexivity].
  unfold chan1; rewrite digit1_step by exact CH.
  rewrite sp1_step; [|reflexivity|exact W2|apply type_head, TY].
  apply type_id; assumption.
Qed.

Lemma v12_match p : pcan_ok p -> single p -> re_match pcan_v12 (v12_text p) = Some (v1_caps p true).
Proof.
  intros OK SG; destruct (single_dlc p OK SG) as (d & ED & D).
  unfold re_match; fold fin; unfold v1_caps; fields p OK; fold_text; subst dlc.
  unfold pcan_v12; cbn [seqs app].
  rewrite chan_prefix; [|exact W0|exact I|apply WT|exact A|exact B|exact W1|exact CH|exact W2|exact TY|exact W3|exact W4|apply digit_space, D|reflexivity].
  apply tail1_match; assumption.
Qed.
Lemma v12_detect p : pcan_ok p -> single p -> detect (v12_text p) = Some PV12.
Proof.
  intros OK SG; destruct (single_dlc p OK SG) as (d & ED & D).
  unfold v12_text; rewrite detect_index1; [|exact OK|apply index1_time_not_default, OK]; fold (v12_text p).
  cbn [find]; unfold matches_line, pattern_re.
  assert (V13 : re_match pcan_v13 (v12_text p) = None).
  { unfold re_match; fold fin; fields p OK; fold_text; subst dlc.
    unfold pcan_v13; cbn [seqs app].
    rewrite chan_prefix; [|exact W0|exact I|apply WT|exact A|exact B|exact W1|exact CH|exact W2|exact TY|exact W3|exact W4|apply digit_space, D|reflexivity].
    apply first_reject; [reflexivity|]; change (Ascii.eqb "-" d || false = false); rewrite orb_false_r.
    apply Ascii.eqb_neq; intros <-; discriminate D. }
  rewrite V13, (v12_match p OK SG); reflexivity.
Qed.

Lemma v13_match p : pcan_ok p -> single p -> re_match pcan_v13 (v13_text p) = Some (v1_caps p true).
Proof.
  intros OK SG; destruct (single_dlc p OK SG) as (d & ED & D).
  unfold re_match; fold fin; unfold v1_caps; fields p OK; fold_text; subst dlc.
  unfold pcan_v13; cbn [seqs app].
  rewrite chan_prefix; [|exact W0|exact I|apply WT|exact A|exact B|exact W1|exact CH|exact W2|exact TY|exact W3|exact W4|reflexivity|reflexivity].
  unfold ch at 1; rewrite seq_chr; change (is_char "-" "-") with true; cbv iota.
  rewrite sp1_step; [|reflexivity|exact W5|apply digit_space, D].
  apply tail1_match; assumption.
Qed.
Lemma v13_detect p : pcan_ok p -> single p -> detect (v13_text p) = Some PV13.
Proof.
  intros OK SG.
  unfold v13_text; rewrite detect_index1; [|exact OK|apply index1_time_not_default, OK]; fold (v13_text p).
  cbn [find]; unfold matches_line, pattern_re.
  rewrite (v13_match p OK SG); reflexivity.
Qed.

(** Versions 2.0 and 2.1 *)
Definition tail2 : re := seqs [dlc2; pcan_opt_data; Eol].
Lemma tail2_match c dlc w7 l :
  run is_digit dlc -> blank w7 ->
  rmatch tail2 c (dlc ++ w7 ++ data_text l) fin = Some (("can_data"%string, data_text l) :: ("dlc"%string, dlc) :: c).
Proof.
  intros DL W.
  unfold tail2; cbn [seqs].
  set (k1 := Seq pcan_opt_data Eol).
  assert (E : forall c1, rmatch k1 c1 (w7 ++ data_text l) fin = Some (("can_data"%string, data_text l) :: c1)).
  { intros c1.
    change (match rmatch (Seq sp1 (Seq (Group "can_data" (Star true (Chr data_class))) Eol)) c1 (w7 ++ data_text l) fin with
            | Some y => Some y | None => rmatch Eol c1 (w7 ++ data_text l) fin end = Some (("can_data"%string, data_text l) :: c1)).
    rewrite (sp1_greedy c1 w7 (data_text l) _ (("can_data"%string, data_text l) :: c1)); [reflexivity|exact W|apply (payload_head (Bytes l))|].
    apply class_group, data_text_class. }
  destruct DL as [DN DL]; destruct dlc as [|d dlc]; [contradiction|].
  cbn in DL; apply andb_true_iff in DL; destruct DL as [D DL].
  set (s := (d :: dlc) ++ w7 ++ data_text l).
  change (rmatch (Seq dlc2 k1) c s fin) with
    (if is_digit d then rmatch (Star true (Chr is_digit)) c (dlc ++ w7 ++ data_text l) (fun c1 s1 => rmatch k1 (("dlc"%string, consumed s s1) :: c1) s1 fin) else None).
  rewrite D, cstar_greedy; [|cbn beta; rewrite E; discriminate|exact DL|apply blank_head; [exact W|exact space_digit]].
  unfold s; rewrite consumed_app, E; reflexivity.
Qed.

Definition v2_text (p : pcan) (rest : chars) : chars := pc_w0 p ++ pc_idx p ++ pc_wt p ++ pc_time p rest.
Lemma detect_v2 p rest : pcan_ok p ->
  detect (v2_text p rest) = find (matches_line (v2_text p rest)) [PV21; PV20; PV13; PV12; PV11; PV10].
Proof.
  intros OK; unfold detect, all_patterns; cbn [find]; unfold matches_line, pattern_re.
  assert (D : re_match candump_default (v2_text p rest) = None) by (apply v2_not_default, OK).
  assert (T : re_match candump_timestamped (v2_text p rest) = None) by (apply v2_no_paren, OK).
  assert (L : re_match candump_log (v2_text p rest) = None) by (apply v2_no_paren, OK).
  assert (N : re_match candump_absolute (v2_text p rest) = None) by (apply v2_no_paren, OK).
  rewrite D, T, L, N; reflexivity.
Qed.

Lemma v2_type p rest r : pcan_ok p -> head_not is_space rest -> forall w, blank w -> disj is_space r = true ->
  re_match (Seq sp0l (Seq dig1l (Seq sp0l (Seq fixed_ts (Seq sp1 (Seq (word "type") (Seq sp1 r))))))) (v2_text p (pc_type p ++ w ++ rest)) =
  rmatch r [("type"%string, pc_type p); ("timestamp"%string, seconds_text (pc_a p) (pc_b p))] rest fin.
Proof.
  intros OK R w W D; unfold re_match; fold fin; unfold v2_text; fields p OK; fold_text.
  rewrite v2_prefix; [|exact W0|exact I|exact WT|exact A|exact B|exact W1|apply type_head, TY].
  unfold word; rewrite seq_gplus_exact; [|reflexivity|apply TY|apply TY|apply blank_head; [exact W|exact space_word]].
  apply sp1_step; assumption.
Qed.

Lemma v20_match p l : pcan_ok p -> pc_payload p = Bytes l ->
  re_match pcan_v20 (v20_text p) =
  Some [("can_data"%string, data_text l); ("dlc"%string, pc_dlc p); ("rxtx"%string, pc_rxtx p); ("can_id"%string, pc_idt p);
        ("type"%string, pc_type p); ("timestamp"%string, seconds_text (pc_a p) (pc_b p))].
Proof.
  intros OK EP.
  unfold v20_text; fold (v2_text p (pc_type p ++ pc_w3 p ++ pc_idt p ++ pc_w4 p ++ pc_rxtx p ++ pc_w5 p ++ pc_end p)).
  unfold pcan_v20; cbn [seqs].
  rewrite v2_type; [|exact OK|apply idt_head|apply OK|reflexivity].
  fields p OK; fold_text; subst pl.
  unfold pcan_id; rewrite seq_gplus_exact; [|reflexivity|apply idt_run|apply idt_run|apply blank_head; [exact W4|exact space_hex]].
  rewrite sp1_step; [|reflexivity|exact W4|apply type_head, RX].
  unfold word; rewrite seq_gplus_exact; [|reflexivity|apply RX|apply RX|apply blank_head; [exact W5|exact space_word]].
  rewrite sp1_step; [|reflexivity|exact W5|eapply run_head; [exact DL|exact digit_space]].
  apply tail2_match; assumption.
Qed.
Lemma v20_detect p l : pcan_ok p -> pc_payload p = Bytes l -> detect (v20_text p) = Some PV20.
Proof.
  intros OK EP.
  assert (V21 : re_match pcan_v21 (v20_text p) = None).
  { unfold v20_text; fold (v2_text p (pc_type p ++ pc_w3 p ++ pc_idt p ++ pc_w4 p ++ pc_rxtx p ++ pc_w5 p ++ pc_end p)).
    unfold pcan_v21; cbn [seqs].
    rewrite v2_type; [|exact OK|apply idt_head|apply OK|reflexivity].
    apply chan_idt. }
  pose proof (v20_match p l OK EP) as M.
  unfold v20_text in *; fold (v2_text p (pc_type p ++ pc_w3 p ++ pc_idt p ++ pc_w4 p ++ pc_rxtx p ++ pc_w5 p ++ pc_end p)) in *.
  rewrite detect_v2 by exact OK; cbn [find]; unfold matches_line, pattern_re; rewrite V21, M; reflexivity.
Qed.

(** [.+] of version 2.1 may take white space before the dash; the other columns are not affected. *)
Lemma unique_dash (u v s t : chars) :
  ~ In "-"%char v -> ~ In "-"%char t -> u ++ "-"%char :: s = v ++ "-"%char :: t -> u = v /\ s = t.
Proof.
  revert v; induction u as [|x u IH]; intros v NV NT E.
  - destruct v as [|y v]; [injection E as ->; auto|].
    cbn in E; injection E as <- _; destruct NV; left; reflexivity.
  - destruct v as [|y v]; cbn in E.
    + injection E as -> E; destruct NT; rewrite <- E; apply in_or_app; right; left; reflexivity.
    + injection E as <- E; destruct (IH v) as [ -> -> ]; auto.
      intros H; apply NV; right; exact H.
Qed.
Lemma class_no_dash (p : ascii -> bool) w : p "-"%char = false -> forallb p w = true -> ~ In "-"%char w.
Proof. intros P W H; rewrite forallb_forall in W; apply W in H; congruence. Qed.
Lemma not_in_app (x : ascii) u v : ~ In x u -> ~ In x v -> ~ In x (u ++ v).
Proof. intros U V H; apply in_app_or in H; tauto. Qed.

Lemma dash_inv {X} c s r (k : caps -> chars -> option X) y :
  rmatch (Seq sp1 (Seq (ch "-") r)) c s k = Some y ->
  exists w t, s = w ++ "-"%char :: t /\ rmatch r c t k = Some y.
Proof.
  intros E; destruct s as [|x s]; [rewrite nil_reject in E by reflexivity; discriminate|].
  change (rmatch (Seq sp1 (Seq (ch "-") r)) c (x :: s) k) with
    (if is_space x then rmatch (Star true (Chr is_space)) c s (fun c1 s1 => rmatch (Seq (ch "-") r) c1 s1 k) else None) in E.
  destruct (is_space x); [|discriminate].
  apply cstar_inv in E; destruct E as (w & s' & -> & _ & E).
  destruct s' as [|z t]; [discriminate|].
  unfold ch in E; rewrite seq_chr in E; unfold is_char in E.
  destruct (Ascii.eqb "-" z) eqn:Z; [|discriminate].
  apply Ascii.eqb_eq in Z; subst z; exists (x :: w), t; auto.
Qed.

Lemma rxtx_match c R w5 w6 dlc w7 l :
  run is_word R -> blank w5 -> blank w6 -> run is_digit dlc -> blank w7 ->
  exists R', rmatch (Seq (Group "rxtx" (Plus true (Chr dot))) (Seq sp1 (Seq (ch "-") (Seq sp1 tail2)))) c
    (R ++ w5 ++ "-"%char :: w6 ++ dlc ++ w7 ++ data_text l) fin =
  Some (("can_data"%string, data_text l) :: ("dlc"%string, dlc) :: ("rxtx"%string, R') :: c).
Proof.
  intros [RN RW] W5 W6 DL W7.
  destruct R as [|x R]; [contradiction|]; cbn in RW; apply andb_true_iff in RW; destruct RW as [RX RW].
  set (q := Seq sp1 (Seq (ch "-") (Seq sp1 tail2))).
  set (T := w6 ++ dlc ++ w7 ++ data_text l).
  set (s := (x :: R) ++ w5 ++ "-"%char :: T).
  set (k := fun c1 s1 => rmatch q (("rxtx"%string, consumed s s1) :: c1) s1 fin).
  assert (WD : forall z, is_word z = true -> dot z = true).
  { clear; intros z H; destruct z as [[] [] [] [] [] [] [] []]; try discriminate H; reflexivity. }
  change (exists R', (if dot x then rmatch (Star true (Chr dot)) c (R ++ w5 ++ "-"%char :: T) k else None) =
    Some (("can_data"%string, data_text l) :: ("dlc"%string, dlc) :: ("rxtx"%string, R') :: c)).
  rewrite (WD _ RX).
  assert (KT : forall c1, rmatch (Seq sp1 tail2) c1 T fin = Some (("can_data"%string, data_text l) :: ("dlc"%string, dlc) :: c1)).
  { intros c1; unfold T; rewrite sp1_step; [apply tail2_match; assumption|reflexivity|exact W6|eapply run_head; [exact DL|exact digit_space]]. }
  assert (K5 : k c (w5 ++ "-"%char :: T) <> None).
  { unfold k, q; rewrite sp1_step; [|reflexivity|exact W5|reflexivity].
    unfold ch; rewrite seq_chr; change (is_char "-" "-") with true; cbv iota; rewrite KT; discriminate. }
  assert (RD : forallb dot R = true) by (rewrite forallb_forall in *; auto).
  pose proof (cstar_some true dot c R (w5 ++ "-"%char :: T) k RD K5) as NN.
  destruct (rmatch (Star true (Chr dot)) c (R ++ w5 ++ "-"%char :: T) k) as [y|] eqn:E; [|contradiction].
  apply cstar_inv in E; destruct E as (u & s' & ES & _ & K).
  unfold k, q in K; apply dash_inv in K; destruct K as (w & t & -> & K).
  rewrite !app_assoc in ES; symmetry in ES; apply unique_dash in ES.
  - destruct ES as [_ ->]; rewrite KT in K; injection K as <-; eexists; reflexivity.
  - apply not_in_app; [apply (class_no_dash is_word); [reflexivity|exact RW]|apply (class_no_dash is_space); [reflexivity|apply W5]].
  - unfold T; repeat apply not_in_app.
    + apply (class_no_dash is_space); [reflexivity|apply W6].
    + apply (class_no_dash is_digit); [reflexivity|apply DL].
    + apply (class_no_dash is_space); [reflexivity|apply W7].
    + apply (class_no_dash data_class); [reflexivity|apply data_text_class].
Qed.

Lemma v21_match p l : pcan_ok p -> pc_payload p = Bytes l ->
  exists R', re_match pcan_v21 (v21_text p) =
  Some [("can_data"%string, data_text l); ("dlc"%string, pc_dlc p); ("rxtx"%string, R'); ("can_id"%string, pc_idt p); ("channel"%string, [pc_chan p]);
        ("type"%string, pc_type p); ("timestamp"%string, seconds_text (pc_a p) (pc_b p))].
Proof.
  intros OK EP.
  unfold v21_text.
  fold (v2_text p (pc_type p ++ pc_w2 p ++ pc_chan p :: pc_w3 p ++ pc_idt p ++ pc_w4 p ++ pc_rxtx p ++ pc_w5 p ++ "-"%char :: pc_w6 p ++ pc_end p)).
  unfold pcan_v21; cbn [seqs].
  assert (CH0 : is_digit (pc_chan p) = true) by apply OK.
  rewrite v2_type; [|exact OK|apply digit_space, CH0|apply OK|reflexivity].
  fields p OK; fold_text; subst pl.
  unfold chan1; rewrite digit1_step by exact CH.
  rewrite sp1_step; [|reflexivity|exact W3|apply idt_head].
  unfold pcan_id; rewrite seq_gplus_exact; [|reflexivity|apply idt_run|apply idt_run|apply blank_head; [exact W4|exact space_hex]].
  assert (ST : forall c rest, head_not is_space rest ->
    rmatch (Seq (Group "rxtx" (Plus true (Chr dot))) (Seq sp1 (Seq (ch "-") (Seq sp1 tail2)))) c rest fin <> None ->
    rmatch (Seq sp1 (Seq (Group "rxtx" (Plus true (Chr dot))) (Seq sp1 (Seq (ch "-") (Seq sp1 tail2))))) c (w4 ++ rest) fin =
    rmatch (Seq (Group "rxtx" (Plus true (Chr dot))) (Seq sp1 (Seq (ch "-") (Seq sp1 tail2)))) c rest fin).
  { intros c rest H N; destruct (rmatch _ c rest fin) as [y|] eqn:E; [|contradiction].
    rewrite <- E; rewrite (sp1_greedy c w4 rest _ y W4 H E); symmetry; exact E. }
  match goal with |- exists R', rmatch _ ?c _ fin = _ => destruct (rxtx_match c rxtx w5 w6 dlc w7 l RX W5 W6 DL W7) as [R' E] end.
  exists R'; etransitivity; [|exact E]; apply ST; [apply type_head, RX|].
  intros N; rewrite N in E; discriminate E.
Qed.
Lemma v21_detect p l : pcan_ok p -> pc_payload p = Bytes l -> detect (v21_text p) = Some PV21.
Proof.
  intros OK EP; destruct (v21_match p l OK EP) as [R' M].
  unfold v21_text in *.
  fold (v2_text p (pc_type p ++ pc_w2 p ++ pc_chan p :: pc_w3 p ++ pc_idt p ++ pc_w4 p ++ pc_rxtx p ++ pc_w5 p ++ "-"%char :: pc_w6 p ++ pc_end p)) in *.
  rewrite detect_v2 by exact OK; cbn [find]; unfold matches_line, pattern_re; rewrite M; reflexivity.
Qed.
