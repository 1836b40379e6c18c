(** C84: what may be written for --start and --stop of the plot command if the times of the log are relative. *)
From Coq Require Import Ascii QArith.
From Verif Require Import Base CSource Regex RegexLemmas Logreader LogSpec LogProofs PlotTimes.
Local Open Scope string_scope.
Local Open Scope Z_scope.
Local Open Scope list_scope.

(** ** Specification *)
(** One or two digits; any digits *)
Definition short (w : chars) : Prop := (List.length w = 1%nat \/ List.length w = 2%nat) /\ forallb is_digit w = true.
Definition long (w : chars) : Prop := w <> [] /\ forallb is_digit w = true.
Inductive clock := HM (h m : chars) | HMColon (h m : chars) | HMS (h m s : chars) | HMSF (h m s f : chars).
Inductive rtime := MS (m s : chars) | MSPoint (m s : chars) | MSF (m s f : chars) | Clock (c : clock) | Days (d : chars) (plural : bool) (c : option clock).
Definition colon (a b : chars) : chars := a ++ ":"%char :: b.
Definition point (a b : chars) : chars := a ++ "."%char :: b.
Definition clock_text (c : clock) : chars :=
  match c with HM h m => colon h m | HMColon h m => colon h (colon m []) | HMS h m s => colon h (colon m s) | HMSF h m s f => colon h (colon m (point s f)) end.
Definition rtime_text (r : rtime) : chars :=
  match r with
  | MS m s => colon [] (colon m s)
  | MSPoint m s => colon m (point s [])
  | MSF m s f => colon m (point s f)
  | Clock c => clock_text c
  | Days d plural c => d ++ (if plural then txt " days" else txt " day") ++ match c with Some c => txt ", " ++ clock_text c | None => [] end
  end.
Definition clock_ok (c : clock) : Prop :=
  match c with HM h m | HMColon h m => short h /\ short m | HMS h m s => short h /\ short m /\ short s | HMSF h m s f => short h /\ short m /\ short s /\ long f end.
Definition rtime_ok (r : rtime) : Prop :=
  match r with
  | MS m s | MSPoint m s => short m /\ short s
  | MSF m s f => short m /\ short s /\ long f
  | Clock (HM _ _) => False
  | Clock c => clock_ok c
  | Days d _ c => short d /\ match c with Some c => clock_ok c | None => True end
  end.
(** Seconds *)
Definition whole (d h m s : Z) : Q := inject_Z (d * 86400 + h * 3600 + m * 60 + s).
Definition fraction (f : chars) : Q := (inject_Z (dec_int f) / inject_Z (10 ^ Z.of_nat (List.length f)))%Q.
Definition clock_value (d : Z) (c : clock) : Q :=
  match c with
  | HM h m | HMColon h m => whole d (dec_int h) (dec_int m) 0
  | HMS h m s => whole d (dec_int h) (dec_int m) (dec_int s)
  | HMSF h m s f => (whole d (dec_int h) (dec_int m) (dec_int s) + fraction f)%Q
  end.
Definition rtime_value (r : rtime) : Q :=
  match r with
  | MS m s | MSPoint m s => whole 0 0 (dec_int m) (dec_int s)
  | MSF m s f => (whole 0 0 (dec_int m) (dec_int s) + fraction f)%Q
  | Clock c => clock_value 0 c
  | Days d _ (Some c) => clock_value (dec_int d) c
  | Days d _ None => whole (dec_int d) 0 0 0
  end.

(** ** Patterns *)
Definition field_ok (many : bool) (w : chars) : Prop := if many then long w else short w.
Inductive fit : list item -> caps -> chars -> Prop :=
| fit_nil : fit [] [] []
| fit_char c l v t : fit l v t -> fit (Char c :: l) v (c :: t)
| fit_field n many w l v t : field_ok many w -> fit l v t -> fit (Field n many :: l) ((n, w) :: v) (w ++ t).
Definition ended (t u : chars) : Prop := t = u \/ t = u ++ [newline].
(** A field is followed by a character that is no digit, or by the end. *)
Fixpoint wf (l : list item) : bool :=
  match l with
  | [] => true
  | Char c :: r => negb (is_digit c) && wf r
  | Field _ _ :: r => match r with Field _ _ :: _ => false | _ => true end && wf r
  end.
Lemma forward l : forall c t c', rmatch (items_re l) c t fin = Some c' -> exists v u, fit l v u /\ ended t u /\ c' = rev v ++ c.
Proof.
  induction l as [|i l IH]; intros c t c' H.
  - exists [], []. cbn [items_re fold_right rmatch] in H. destruct t as [|x t]; [injection H as <-; repeat split; [constructor|now left]|]. destruct t; [|discriminate]. destruct (Ascii.eqb x newline) eqn:E; [|discriminate]. apply Ascii.eqb_eq in E. subst. injection H as <-. repeat split; [constructor|now right].
  - change (rmatch (item_re i) c t (fun c' s' => rmatch (items_re l) c' s' fin) = Some c') in H.
    assert (F : forall n many w s, t = w ++ s -> i = Field n many -> field_ok many w -> rmatch (items_re l) ((n, consumed t s) :: c) s fin = Some c' -> exists v u, fit (i :: l) v u /\ ended t u /\ c' = rev v ++ c).
    { intros n many w s -> -> W R. rewrite consumed_app in R. destruct (IH _ _ _ R) as (v & u & A & B & C). exists ((n, w) :: v), (w ++ u). split; [now constructor|]. split; [destruct B as [->| ->]; [now left|right; now rewrite app_assoc]|]. cbn [rev]. rewrite <- app_assoc. exact C. }
    destruct i as [n [|]|x].
    + cbn [item_re] in H. unfold Plus in H. destruct t as [|d t]; [discriminate|].
      change ((if is_digit d then rmatch (Star true (Chr is_digit)) c t (fun c' s' => rmatch (items_re l) ((n, consumed (d :: t) s') :: c') s' fin) else None) = Some c') in H.
      destruct (is_digit d) eqn:D; [|discriminate]. apply cstar_inv in H. destruct H as (w & s & E & W & R). apply (F n true (d :: w) s); [cbn [List.app]; now rewrite E|reflexivity|split; [discriminate|cbn [forallb]; now rewrite D]|exact R].
    + cbn [item_re] in H. destruct t as [|d t]; [discriminate|].
      change ((if is_digit d then match match t with y :: s => if is_digit y then rmatch (items_re l) ((n, consumed (d :: t) s) :: c) s fin else None | [] => None end with Some z => Some z | None => rmatch (items_re l) ((n, consumed (d :: t) t) :: c) t fin end else None) = Some c') in H.
      destruct (is_digit d) eqn:D; [|discriminate].
      assert (ONE : rmatch (items_re l) ((n, consumed (d :: t) t) :: c) t fin = Some c' -> exists v u, fit (Field n false :: l) v u /\ ended (d :: t) u /\ c' = rev v ++ c).
      { intros R. apply (F n false [d] t); [reflexivity|reflexivity|split; [now left|cbn [forallb]; now rewrite D]|exact R]. }
      destruct t as [|y s]; [now apply ONE|]. destruct (is_digit y) eqn:Y; [|now apply ONE]. destruct (rmatch (items_re l) ((n, consumed (d :: y :: s) s) :: c) s fin) eqn:R; [|now apply ONE].
      injection H as <-. apply (F n false [d; y] s); [reflexivity|reflexivity|split; [now right|cbn [forallb]; now rewrite D, Y]|exact R].
    + cbn [item_re] in H. unfold ch in H. destruct t as [|y t]; [discriminate|]. cbn [rmatch] in H. unfold is_char in H. destruct (Ascii.eqb x y) eqn:E; [|discriminate]. apply Ascii.eqb_eq in E. subst y.
      destruct (IH _ _ _ H) as (v & u & A & B & C). exists v, (x :: u). split; [now constructor|]. split; [destruct B as [->| ->]; [now left|now right]|exact C].
Qed.
Lemma fit_head l v u : wf l = true -> match l with Field _ _ :: _ => false | _ => true end = true -> fit l v u -> head_not is_digit (u ++ []) /\ head_not is_digit (u ++ [newline]).
Proof. intros W N F. destruct F as [|c l v t F|]; [now split| |discriminate]. cbn [wf] in W. apply andb_true_iff in W. destruct W as [W _]. apply negb_true_iff in W. now split. Qed.
Lemma backward l : forall c v u e, wf l = true -> fit l v u -> e = [] \/ e = [newline] -> rmatch (items_re l) c (u ++ e) fin = Some (rev v ++ c).
Proof.
  induction l as [|i l IH]; intros c v u e W F E.
  - inversion F; subst. destruct E as [->| ->]; reflexivity.
  - inversion F as [|x l' v' t F' |n many w l' v' t OK F']; subst.
    + cbn [wf] in W. apply andb_true_iff in W. destruct W as [_ W]. cbn [items_re fold_right item_re]. unfold ch. rewrite <- app_comm_cons. rewrite seq_chr. unfold is_char. rewrite Ascii.eqb_refl. now apply IH.
    + cbn [wf] in W. apply andb_true_iff in W. destruct W as [N W].
      assert (H : head_not is_digit (t ++ e)) by (destruct (fit_head l v' t W N F'); now destruct E as [->| ->]).
      assert (R : forall c, rmatch (items_re l) c (t ++ e) fin = Some (rev v' ++ c)) by (intros; now apply IH).
      rewrite <- app_assoc. cbn [rev]. rewrite <- app_assoc. cbn [List.app]. rewrite <- (R ((n, w) :: c)). rewrite <- (consumed_app w (t ++ e)) at 2.
      change (items_re (Field n many :: l)) with (Seq (item_re (Field n many)) (items_re l)). destruct many; cbn [field_ok] in OK; cbn [item_re].
      * destruct OK as [NE DW]. destruct w as [|d w]; [contradiction|]. cbn [forallb] in DW. apply andb_true_iff in DW. destruct DW as [DD DW].
        change ((if is_digit d then rmatch (Star true (Chr is_digit)) c (w ++ t ++ e) (fun c' s' => rmatch (items_re l) ((n, consumed (d :: w ++ t ++ e) s') :: c') s' fin) else None) = rmatch (items_re l) ((n, consumed (d :: w ++ t ++ e) (t ++ e)) :: c) (t ++ e) fin).
        rewrite DD. rewrite cstar_greedy; [reflexivity|rewrite R; discriminate|exact DW|exact H].
      * destruct OK as [L DW]. destruct w as [|d [|y [|z w]]]; try (cbn in L; lia); cbn [forallb] in DW.
        -- rewrite andb_true_r in DW. change ((if is_digit d then match match t ++ e with y :: s => if is_digit y then rmatch (items_re l) ((n, consumed (d :: t ++ e) s) :: c) s fin else None | [] => None end with Some z => Some z | None => rmatch (items_re l) ((n, consumed (d :: t ++ e) (t ++ e)) :: c) (t ++ e) fin end else None) = rmatch (items_re l) ((n, consumed (d :: t ++ e) (t ++ e)) :: c) (t ++ e) fin).
           rewrite DW. destruct (t ++ e) as [|y s]; [reflexivity|]. cbn [head_not] in H. now rewrite H.
        -- rewrite andb_true_r in DW. apply andb_true_iff in DW. destruct DW as [DD DY].
           change ((if is_digit d then match (if is_digit y then rmatch (items_re l) ((n, consumed (d :: y :: t ++ e) (t ++ e)) :: c) (t ++ e) fin else None) with Some z => Some z | None => rmatch (items_re l) ((n, consumed (d :: y :: t ++ e) (y :: t ++ e)) :: c) (y :: t ++ e) fin end else None) = rmatch (items_re l) ((n, consumed (d :: y :: t ++ e) (t ++ e)) :: c) (t ++ e) fin).
           rewrite DD, DY, R. reflexivity.
Qed.

(** At most one pattern fits: digits apart, the texts of two patterns differ. *)
Fixpoint skel (t : chars) : chars :=
  match t with
  | [] => []
  | x :: r => if is_digit x then match r with y :: _ => if is_digit y then skel r else "0"%char :: skel r | [] => ["0"%char] end else x :: skel r
  end.
Definition items_skel (l : list item) : chars := map (fun i => match i with Field _ _ => "0"%char | Char c => c end) l.
Lemma skel_run w t : w <> [] -> forallb is_digit w = true -> head_not is_digit t -> skel (w ++ t) = "0"%char :: skel t.
Proof.
  intros NE W H. induction w as [|x w IH]; [contradiction|]. cbn [forallb] in W. apply andb_true_iff in W. destruct W as [X W]. destruct w as [|y w].
  - cbn [List.app skel]. rewrite X. destruct t as [|y t]; [reflexivity|]. cbn [head_not] in H. now rewrite H.
  - assert (E : skel ((x :: y :: w) ++ t) = skel ((y :: w) ++ t)) by (cbn [List.app]; change (skel (x :: y :: w ++ t)) with (if is_digit x then if is_digit y then skel (y :: w ++ t) else "0"%char :: skel (y :: w ++ t) else x :: skel (y :: w ++ t)); cbn [forallb] in W; apply andb_true_iff in W; destruct W as [Y _]; now rewrite X, Y).
    rewrite E. apply IH; [discriminate|exact W].
Qed.
Lemma fit_skel l : forall v u e, wf l = true -> fit l v u -> e = [] \/ e = [newline] -> skel (u ++ e) = items_skel l ++ e.
Proof.
  induction l as [|i l IH]; intros v u e W F E.
  - inversion F; subst. destruct E as [->| ->]; reflexivity.
  - inversion F as [|x l' v' t F' |n many w l' v' t OK F']; subst.
    + cbn [wf] in W. apply andb_true_iff in W. destruct W as [X W]. apply negb_true_iff in X. cbn [List.app items_skel map]. cbn [skel]. rewrite X. f_equal. now apply (IH v).
    + cbn [wf] in W. apply andb_true_iff in W. destruct W as [N W].
      assert (H : head_not is_digit (t ++ e)) by (destruct (fit_head l v' t W N F'); now destruct E as [->| ->]).
      rewrite <- app_assoc, skel_run; [cbn [items_skel map List.app]; f_equal; now apply (IH v')| | |exact H]; destruct many, OK as [A B]; try assumption. intros ->. cbn in A. lia.
Qed.
Lemma ended_skel l v t u : wf l = true -> fit l v u -> ended t u -> exists e, (e = [] \/ e = [newline]) /\ skel t = items_skel l ++ e.
Proof.
  intros W F [->| ->].
  - exists []. split; [now left|]. rewrite <- (app_nil_r u). apply (fit_skel l v); [exact W|exact F|now left].
  - exists [newline]. split; [now right|]. apply (fit_skel l v); [exact W|exact F|now right].
Qed.
Definition pitems (p : string) : list item := items (txt p).
Lemma patterns_wf : forallb (fun p => wf (pitems p)) patterns = true.
Proof. vm_compute. reflexivity. Qed.
Definition no_newline (l : list item) : bool := forallb (fun x => negb (Ascii.eqb x newline)) (items_skel l).
Definition same_text (a b : chars) : bool := if list_eq_dec ascii_dec a b then true else false.
Lemma same_refl (l : chars) : same_text l l = true.
Proof. unfold same_text. now destruct (list_eq_dec ascii_dec l l). Qed.
Lemma patterns_apart : forallb (fun p => no_newline (pitems p) && forallb (fun p' => String.eqb p p' || negb (same_text (items_skel (pitems p)) (items_skel (pitems p')))) patterns) patterns = true.
Proof. vm_compute. reflexivity. Qed.
Lemma snoc_newline (a b e e' : chars) : forallb (fun x => negb (Ascii.eqb x newline)) a = true -> forallb (fun x => negb (Ascii.eqb x newline)) b = true ->
  e = [] \/ e = [newline] -> e' = [] \/ e' = [newline] -> a ++ e = b ++ e' -> a = b.
Proof.
  intros A B E E' H. assert (X : forall a b : chars, forallb (fun x => negb (Ascii.eqb x newline)) a = true -> a = b ++ [newline] -> False).
  { intros x y F ->. rewrite forallb_app in F. apply andb_true_iff in F. destruct F as [_ F]. discriminate. }
  destruct E as [->| ->], E' as [->| ->]; rewrite ?app_nil_r in H; [exact H|now destruct (X a b)|now destruct (X b a)|]. now apply app_inv_tail in H.
Qed.
Lemma one_pattern p p' v v' t u u' : In p patterns -> In p' patterns -> fit (pitems p) v u -> fit (pitems p') v' u' -> ended t u -> ended t u' -> p = p'.
Proof.
  intros I I' F F' E E'. pose proof patterns_wf as W. rewrite forallb_forall in W. pose proof patterns_apart as A. rewrite forallb_forall in A.
  destruct (ended_skel _ _ _ _ (W _ I) F E) as (e & X & S). destruct (ended_skel _ _ _ _ (W _ I') F' E') as (e' & X' & S').
  pose proof (A _ I) as N. pose proof (A _ I') as N'. apply andb_true_iff in N, N'. destruct N as [N D], N' as [N' _]. rewrite S in S'. apply snoc_newline in S'; [|assumption..].
  rewrite forallb_forall in D. specialize (D _ I'). apply orb_true_iff in D. destruct D as [D|D]; [now apply String.eqb_eq|]. rewrite S', same_refl in D. discriminate.
Qed.
Lemma delta_iff t p q : In p patterns -> (time_delta t p = Some q <-> exists v u, fit (pitems p) v u /\ ended t u /\ q = seconds_of (rev v ++ [])).
Proof.
  intros I. pose proof patterns_wf as W. rewrite forallb_forall in W. unfold time_delta. change (re_match (items_re (items (txt p))) t) with (rmatch (items_re (pitems p)) [] t fin). split.
  - destruct (rmatch (items_re (pitems p)) [] t fin) as [c|] eqn:E; [|discriminate]. intros [= <-]. apply forward in E. destruct E as (v & u & A & B & ->). now exists v, u.
  - intros (v & u & F & E & ->). destruct E as [->| ->].
    + rewrite <- (app_nil_r u). rewrite (backward _ _ v); [reflexivity|apply W, I|exact F|now left].
    + rewrite (backward _ _ v); [reflexivity|apply W, I|exact F|now right].
Qed.
Lemma first_iff t q l : incl l patterns -> (first_fit t l = Ok q <-> exists p, In p l /\ time_delta t p = Some q).
Proof.
  induction l as [|p l IH]; intros I; cbn [first_fit]; [split; [discriminate|now intros (p & [] & _)]|].
  assert (IL : incl l patterns) by (intros x X; apply I; now right). assert (IP : In p patterns) by (apply I; now left).
  destruct (time_delta t p) as [q'|] eqn:E.
  - split; [intros [= <-]; exists p; split; [now left|exact E]|]. intros (p' & IP' & E'). apply I in IP'. pose proof E as E2. apply delta_iff in E2, E'; [|assumption..]. destruct E2 as (v & u & A & B & _), E' as (v' & u' & A' & B' & D).
    assert (p = p') by (eapply one_pattern; eassumption). subst p'. f_equal. assert (X : time_delta t p = Some q) by (apply delta_iff; [exact IP|now exists v', u']). congruence.
  - rewrite IH by exact IL. split; intros (p' & X & Y); [exists p'; split; [now right|exact Y]|]. destruct X as [->|X]; [congruence|now exists p'].
Qed.

(** ** The times as patterns *)
Definition clock_pattern (c : clock) : string := match c with HM _ _ => "%H:%M" | HMColon _ _ => "%H:%M:" | HMS _ _ _ => "%H:%M:%S" | HMSF _ _ _ _ => "%H:%M:%S.%f" end.
Definition rtime_pattern (r : rtime) : string :=
  match r with
  | MS _ _ => ":%M:%S" | MSPoint _ _ => "%M:%S." | MSF _ _ _ => "%M:%S.%f" | Clock c => clock_pattern c
  | Days _ plural c => ("%d day" ++ (if plural then "s" else "") ++ match c with Some c => ", " ++ clock_pattern c | None => "" end)%string
  end.
Definition clock_caps (c : clock) : caps :=
  match c with
  | HM h m | HMColon h m => [("hour"%string, h); ("min"%string, m)]
  | HMS h m s => [("hour"%string, h); ("min"%string, m); ("s"%string, s)]
  | HMSF h m s f => [("hour"%string, h); ("min"%string, m); ("s"%string, s); ("ms"%string, f)]
  end.
Definition rtime_caps (r : rtime) : caps :=
  match r with
  | MS m s | MSPoint m s => [("min"%string, m); ("s"%string, s)]
  | MSF m s f => [("min"%string, m); ("s"%string, s); ("ms"%string, f)]
  | Clock c => clock_caps c
  | Days d _ c => ("day"%string, d) :: match c with Some c => clock_caps c | None => [] end
  end.
Ltac build_fit := repeat first [apply fit_char|apply fit_nil|apply fit_field; [assumption|]].
Lemma fit_end n many w v : field_ok many w -> v = [(n, w)] -> fit [Field n many] v w.
Proof. intros H ->. rewrite <- (app_nil_r w) at 2. constructor; [exact H|constructor]. Qed.
Lemma clock_fit c : clock_ok c -> fit (pitems (clock_pattern c)) (clock_caps c) (clock_text c).
Proof.
  destruct c as [h m|h m|h m s|h m s f]; cbn [clock_ok]; intros K; repeat match goal with H : _ /\ _ |- _ => destruct H end; unfold pitems; cbn [clock_pattern clock_caps clock_text]; unfold colon, point; 
  match goal with |- fit ?l _ _ => let l' := eval vm_compute in l in change l with l' end; build_fit; try (apply fit_end; [assumption|reflexivity]).
Qed.
Lemma fit_app l l' v v' t t' : fit l v t -> fit l' v' t' -> fit (l ++ l') (v ++ v') (t ++ t').
Proof. induction 1; intros F; cbn [List.app]; [exact F|constructor; auto|rewrite <- app_assoc; constructor; auto]. Qed.
Lemma rtime_fit r : rtime_ok r -> fit (pitems (rtime_pattern r)) (rtime_caps r) (rtime_text r).
Proof.
  destruct r as [m s|m s|m s f|c|d p c]; cbn [rtime_ok]; intros K.
  1-3: repeat match goal with H : _ /\ _ |- _ => destruct H end; unfold pitems; cbn [rtime_pattern rtime_caps rtime_text]; unfold colon, point;
    match goal with |- fit ?l _ _ => let l' := eval vm_compute in l in change l with l' end; cbn [List.app]; build_fit; try (apply fit_end; [assumption|reflexivity]).
  - apply clock_fit. now destruct c.
  - destruct K as [D K]. assert (P : fit (pitems ("%d day" ++ (if p then "s" else ""))) [("day"%string, d)] (d ++ (if p then txt " days" else txt " day"))).
    { destruct p; unfold pitems; match goal with |- fit ?l _ _ => let l' := eval vm_compute in l in change l with l' end; apply fit_field; try exact D; repeat constructor. }
    destruct c as [c|].
    + cbn [rtime_text rtime_caps]. change (("day"%string, d) :: clock_caps c) with ([("day"%string, d)] ++ clock_caps c). rewrite app_assoc.
      replace (pitems (rtime_pattern (Days d p (Some c)))) with (pitems ("%d day" ++ (if p then "s" else "")) ++ [Char ","; Char " "] ++ pitems (clock_pattern c)) by (destruct p, c; vm_compute; reflexivity).
      apply fit_app; [exact P|]. change (clock_caps c) with ([] ++ clock_caps c). apply fit_app; [repeat constructor|now apply clock_fit].
    + cbn [rtime_text rtime_caps]. rewrite app_nil_r. replace (pitems (rtime_pattern (Days d p None))) with (pitems ("%d day" ++ (if p then "s" else ""))) by (destruct p; vm_compute; reflexivity). exact P.
Qed.
Lemma rtime_in r : rtime_ok r -> In (rtime_pattern r) patterns.
Proof. destruct r as [m s|m s|m s f|c|d p c]; intros K; [| | |destruct c; [destruct K|..]|destruct p, c as [[]|]]; vm_compute; tauto. Qed.
Ltac fits F := match type of F with fit ?l _ _ => let l' := eval vm_compute in l in change l with l' in F end; repeat match goal with H : fit (_ :: _) _ _ |- _ => inversion H; clear H; subst | H : fit [] _ _ |- _ => inversion H; clear H; subst end; repeat match goal with H : field_ok _ _ |- _ => cbn [field_ok] in H end.
Ltac is_time r := eexists r; split; [|split; [reflexivity|]]; [cbn [rtime_ok clock_ok]; repeat split; solve [assumption|exact I|match goal with H : short ?w |- _ => apply H | H : long ?w |- _ => apply H end]|reflexivity].
Lemma fit_rtime p v u : In p patterns -> fit (pitems p) v u -> exists r, rtime_ok r /\ v = rtime_caps r /\ u = rtime_text r.
Proof.
  intros IN F. vm_compute in IN. unfold pitems in F.
  repeat match type of IN with _ \/ _ => destruct IN as [IN|IN] end; [..|destruct IN]; subst p; fits F; rewrite ?app_nil_r.
  1: is_time (MS w w0).
  1: is_time (MSPoint w w0).
  1: is_time (MSF w w0 w1).
  1: is_time (Clock (HMColon w w0)).
  1: is_time (Clock (HMS w w0 w1)).
  1: is_time (Clock (HMSF w w0 w1 w2)).
  1: is_time (Days w false None).
  1: is_time (Days w true None).
  1: is_time (Days w false (Some (HM w0 w1))).
  1: is_time (Days w false (Some (HMColon w0 w1))).
  1: is_time (Days w false (Some (HMS w0 w1 w2))).
  1: is_time (Days w false (Some (HMSF w0 w1 w2 w3))).
  1: is_time (Days w true (Some (HM w0 w1))).
  1: is_time (Days w true (Some (HMColon w0 w1))).
  1: is_time (Days w true (Some (HMS w0 w1 w2))).
  is_time (Days w true (Some (HMSF w0 w1 w2 w3))).
Qed.
Lemma dec_app s f : dec_int (s ++ f) = dec_int s * 10 ^ Z.of_nat (List.length f) + dec_int f.
Proof.
  unfold dec_int. rewrite fold_left_app. generalize (fold_left (fun a c => 10 * a + hex_value c) s 0). assert (G : forall f a, fold_left (fun a c => 10 * a + hex_value c) f a = a * 10 ^ Z.of_nat (List.length f) + fold_left (fun a c => 10 * a + hex_value c) f 0).
  { clear. induction f as [|x f IH]; intros a; cbn [fold_left List.length]; [cbn; lia|]. rewrite IH, (IH (10 * 0 + hex_value x)). rewrite Nat2Z.inj_succ, Z.pow_succ_r by lia. lia. }
  intros a. apply G.
Qed.
Lemma decimal s f : (inject_Z (dec_int (s ++ f)) / inject_Z (10 ^ Z.of_nat (List.length f)) == inject_Z (dec_int s) + fraction f)%Q.
Proof.
  rewrite dec_app. unfold fraction. assert (P : ~ (inject_Z (10 ^ Z.of_nat (List.length f)) == 0)%Q) by (change 0%Q with (inject_Z 0); rewrite inject_Z_injective; apply Z.pow_nonzero; lia).
  rewrite inject_Z_plus, inject_Z_mult. field. exact P.
Qed.
Lemma fields_value d h m s f : (inject_Z (((d * 24 + h) * 60 + m) * 60) + inject_Z (dec_int (s ++ f)) / inject_Z (10 ^ Z.of_nat (List.length f)) == whole d h m (dec_int s) + fraction f)%Q.
Proof. rewrite decimal, Qplus_assoc. apply Qplus_inj_r. unfold whole. rewrite <- inject_Z_plus. rewrite inject_Z_injective. lia. Qed.
Lemma fraction_zero : (fraction (txt "0") == 0)%Q.
Proof. reflexivity. Qed.
Lemma rtime_seconds r : rtime_ok r -> (seconds_of (rev (rtime_caps r) ++ []) == rtime_value r)%Q.
Proof.
  intros _. rewrite app_nil_r. unfold seconds_of. rewrite fields_value.
  assert (Z0 : forall q, (q + fraction (txt "0") == q)%Q) by (intros q; rewrite fraction_zero; apply Qplus_0_r).
  destruct r as [m s|m s|m s f|[]|d p [[]|]]; unfold field; cbn [rtime_caps clock_caps rev List.app group sget rtime_value clock_value].
  all: first [reflexivity|exact (Z0 _)].
Qed.

(** ** Theorems *)
Section Theorems.
  Context (float_of : chars -> option Q).
  Notation relative_time := (relative_time float_of).
  (** Texts that are no number: exactly the times are understood, with their number of seconds; a line end may follow. *)
  Theorem C84_understood t q : float_of t = None ->
    (exists q', relative_time t = Ok q' /\ (q' == q)%Q) <-> exists r, rtime_ok r /\ ended t (rtime_text r) /\ (q == rtime_value r)%Q.
  Proof.
    intros N. unfold PlotTimes.relative_time. rewrite N. split.
    - intros (q' & H & E). apply first_iff in H; [|apply incl_refl]. destruct H as (p & I & H). apply delta_iff in H; [|exact I]. destruct H as (v & u & F & En & ->). destruct (fit_rtime p v u I F) as (r & K & -> & ->). exists r. split; [exact K|]. split; [exact En|]. rewrite <- E. now apply rtime_seconds.
    - intros (r & K & En & E). exists (seconds_of (rev (rtime_caps r) ++ [])). split; [|rewrite E; now apply rtime_seconds]. apply first_iff; [apply incl_refl|]. exists (rtime_pattern r). split; [now apply rtime_in|]. apply delta_iff; [now apply rtime_in|]. exists (rtime_caps r), (rtime_text r). split; [now apply rtime_fit|]. now split.
  Qed.
  Lemma first_error t l e : first_fit t l = Err e -> e = ValueError.
  Proof. induction l as [|p l IH]; cbn [first_fit]; [now intros [= <-]|]. destruct (time_delta t p); [discriminate|exact IH]. Qed.
  (** Everything else is refused; numbers are seconds. *)
  Theorem C84_refused t : (forall r, rtime_ok r -> ~ ended t (rtime_text r)) -> relative_time t = match float_of t with Some q => Ok q | None => Err ValueError end.
  Proof.
    intros H. destruct (float_of t) as [q|] eqn:N; [unfold PlotTimes.relative_time; now rewrite N|].
    destruct (relative_time t) as [q|e] eqn:R.
    - exfalso. destruct (proj1 (C84_understood t q N)) as (r & K & E & _); [exists q; split; [exact R|reflexivity]|]. exact (H r K E).
    - unfold PlotTimes.relative_time in R. rewrite N in R. apply first_error in R. now subst.
  Qed.
  (** No text means two different times. *)
  Theorem C84_unambiguous r r' : float_of (rtime_text r) = None -> rtime_ok r -> rtime_ok r' -> rtime_text r = rtime_text r' -> (rtime_value r == rtime_value r')%Q.
  Proof.
    intros N K K' E. destruct (proj2 (C84_understood (rtime_text r) (rtime_value r) N)) as (q & R & Q1); [exists r; split; [exact K|]; split; [now left|reflexivity]|].
    destruct (proj2 (C84_understood (rtime_text r) (rtime_value r') N)) as (q' & R' & Q2); [exists r'; split; [exact K'|]; split; [now left|reflexivity]|]. rewrite R in R'. injection R' as <-. now rewrite <- Q1.
  Qed.
  (** Two numbers with a colon between them are refused. *)
  Lemma rtime_skel r e : rtime_ok r -> e = [] \/ e = [newline] -> skel (rtime_text r ++ e) = items_skel (pitems (rtime_pattern r)) ++ e.
  Proof. intros K E. pose proof patterns_wf as W. rewrite forallb_forall in W. apply (fit_skel _ (rtime_caps r)); [apply W; now apply rtime_in|now apply rtime_fit|exact E]. Qed.
  Lemma ended_rtime t r : rtime_ok r -> ended t (rtime_text r) -> exists p e, In p patterns /\ (e = [] \/ e = [newline]) /\ skel t = items_skel (pitems p) ++ e.
  Proof.
    intros K [->| ->]; exists (rtime_pattern r).
    - exists []. split; [now apply rtime_in|]. split; [now left|]. rewrite <- (app_nil_r (rtime_text r)). apply rtime_skel; [exact K|now left].
    - exists [newline]. split; [now apply rtime_in|]. split; [now right|]. apply rtime_skel; [exact K|now right].
  Qed.
  Theorem C84_ambiguous a b : long a -> long b -> float_of (colon a b) = None -> relative_time (colon a b) = Err ValueError.
  Proof.
    intros [NA A] [NB B] N. rewrite C84_refused; [now rewrite N|]. intros r K E. destruct (ended_rtime _ r K E) as (p & e & I & X & S). unfold colon in S. rewrite skel_run in S; [|exact NA|exact A|reflexivity]. cbn [skel] in S. change (is_digit ":") with false in S. cbn match in S. rewrite <- (app_nil_r b), skel_run in S; [|exact NB|exact B|exact Logic.I]. cbn [skel] in S.
    vm_compute in I. repeat match type of I with _ \/ _ => destruct I as [I|I] end; [..|destruct I]; subst p; match type of S with _ = items_skel ?l ++ _ => let l' := eval vm_compute in (items_skel l) in change (items_skel l) with l' in S end; destruct X as [->| ->]; discriminate S.
  Qed.

  (** *** What Python prints for a timedelta *)
  Fixpoint digits (n : nat) (z : Z) : chars := match n with O => [] | S n' => digits n' (z / 10) ++ [hexdigit (z mod 10)] end.
  Definition number (z : Z) : chars := if z <? 10 then digits 1 z else digits 2 z.
  Definition day_time_text (secs us : Z) : chars :=
    number (secs / 3600) ++ ":"%char :: digits 2 (secs / 60 mod 60) ++ ":"%char :: digits 2 (secs mod 60) ++ (if us =? 0 then [] else "."%char :: digits 6 us).
  Definition delta_text (days : chars) (one : bool) (secs us : Z) : chars := days ++ (if one then txt " day" else txt " days") ++ txt ", " ++ day_time_text secs us.
  Lemma digits_length n : forall z, List.length (digits n z) = n.
  Proof. induction n as [|n IH]; intros z; [reflexivity|]. cbn [digits]. rewrite app_length, IH. cbn. lia. Qed.
  Lemma digits_ok n : forall z, forallb is_digit (digits n z) = true.
  Proof. induction n as [|n IH]; intros z; [reflexivity|]. cbn [digits]. rewrite forallb_app, IH. cbn [forallb andb]. rewrite hexdigit_dec; [reflexivity|]. apply Z.mod_pos_bound. lia. Qed.
  Lemma digits_value n : forall z, 0 <= z < 10 ^ Z.of_nat n -> dec_int (digits n z) = z.
  Proof.
    induction n as [|n IH]; intros z H; [cbn in *; lia|]. cbn [digits]. rewrite dec_app. cbn [List.length]. rewrite Nat2Z.inj_succ, Z.pow_succ_r in H by lia.
    rewrite IH by (split; [apply Z.div_pos; lia|apply Z.div_lt_upper_bound; lia]). assert (M : 0 <= z mod 10 < 10) by (apply Z.mod_pos_bound; lia). unfold dec_int. cbn [fold_left]. rewrite hexdigit_value by lia. pose proof (Z.div_mod z 10). lia.
  Qed.
  Lemma digits_short n z : n = 1%nat \/ n = 2%nat -> short (digits n z).
  Proof. intros H. split; [rewrite digits_length; exact H|apply digits_ok]. Qed.
  Lemma number_short z : short (number z).
  Proof. unfold number. destruct (z <? 10); apply digits_short; auto. Qed.
  Lemma number_value z : 0 <= z < 100 -> dec_int (number z) = z.
  Proof. intros H. unfold number. destruct (z <? 10) eqn:E; apply digits_value; cbn; lia. Qed.
  Definition day_clock (secs us : Z) : clock :=
    if us =? 0 then HMS (number (secs / 3600)) (digits 2 (secs / 60 mod 60)) (digits 2 (secs mod 60))
    else HMSF (number (secs / 3600)) (digits 2 (secs / 60 mod 60)) (digits 2 (secs mod 60)) (digits 6 us).
  Lemma day_clock_ok secs us : clock_ok (day_clock secs us).
  Proof. unfold day_clock. destruct (us =? 0); cbn [clock_ok]; (split; [apply number_short|]); (split; [apply digits_short; auto|]); [apply digits_short; auto|]. split; [apply digits_short; auto|]. split; [intros E; apply (f_equal (@List.length ascii)) in E; rewrite digits_length in E; discriminate|apply digits_ok]. Qed.
  Lemma day_clock_text secs us : clock_text (day_clock secs us) = day_time_text secs us.
  Proof. unfold day_clock, day_time_text. destruct (us =? 0); cbn [clock_text]; unfold colon, point; [now rewrite app_nil_r|reflexivity]. Qed.
  Lemma day_clock_value d secs us : 0 <= secs < 86400 -> 0 <= us < 1000000 -> (clock_value d (day_clock secs us) == inject_Z (d * 86400 + secs) + inject_Z us / inject_Z 1000000)%Q.
  Proof.
    intros S U. assert (W : whole d (dec_int (number (secs / 3600))) (dec_int (digits 2 (secs / 60 mod 60))) (dec_int (digits 2 (secs mod 60))) = inject_Z (d * 86400 + secs)).
    { assert (H : 0 <= secs / 3600 < 24) by (split; [apply Z.div_pos; lia|apply Z.div_lt_upper_bound; lia]). assert (M : 0 <= secs / 60 mod 60 < 60) by (apply Z.mod_pos_bound; lia). assert (T : 0 <= secs mod 60 < 60) by (apply Z.mod_pos_bound; lia).
      rewrite number_value by lia. rewrite !digits_value by (cbn; lia). unfold whole. f_equal. pose proof (Z.div_mod secs 60). pose proof (Z.div_mod (secs / 60) 60). assert (secs / 3600 = secs / 60 / 60) by (rewrite Z.div_div by lia; reflexivity). lia. }
    unfold day_clock. destruct (us =? 0) eqn:E; cbn [clock_value]; rewrite W.
    - apply Z.eqb_eq in E. subst us. change (inject_Z 0 / inject_Z 1000000)%Q with (0 / inject_Z 1000000)%Q. unfold Qdiv. rewrite Qmult_0_l. now rewrite Qplus_0_r.
    - unfold fraction. rewrite digits_length, digits_value by (cbn; lia). reflexivity.
  Qed.
  (** What Python prints for a time of less than a hundred days is understood as that time. *)
  Theorem C84_timedelta days secs us : 0 <= days < 100 -> 0 <= secs < 86400 -> 0 <= us < 1000000 ->
    let t := if days =? 0 then day_time_text secs us else delta_text (number days) (days =? 1) secs us in
    float_of t = None -> exists q, relative_time t = Ok q /\ (q == inject_Z (days * 86400 + secs) + inject_Z us / inject_Z 1000000)%Q.
  Proof.
    intros D S U t N. destruct (proj2 (C84_understood t (inject_Z (days * 86400 + secs) + inject_Z us / inject_Z 1000000)%Q N)) as (q & A & B); [|exists q; now split].
    unfold t in *. destruct (days =? 0) eqn:E.
    - apply Z.eqb_eq in E. subst days. exists (Clock (day_clock secs us)). split; [pose proof (day_clock_ok secs us) as K; cbn [rtime_ok]; unfold day_clock in *; now destruct (us =? 0)|]. split; [left; symmetry; apply day_clock_text|]. cbn [rtime_value]. symmetry. now apply day_clock_value.
    - exists (Days (number days) (negb (days =? 1)) (Some (day_clock secs us))). split; [split; [apply number_short|apply day_clock_ok]|]. split; [left; unfold delta_text; cbn [rtime_text]; rewrite day_clock_text; now destruct (days =? 1)|]. cbn [rtime_value]. rewrite number_value by lia. symmetry. now apply day_clock_value.
  Qed.
  (** From a hundred days on it is refused. *)
  Lemma split_digits (w w' r r' : chars) : forallb is_digit w = true -> forallb is_digit w' = true -> head_not is_digit r -> head_not is_digit r' -> w ++ r = w' ++ r' -> w = w'.
  Proof.
    revert w'. induction w as [|x w IH]; intros [|y w'] A B H H' E; cbn [List.app forallb] in *; [reflexivity| | |].
    - subst r. cbn [head_not] in H. now rewrite H in B.
    - subst r'. cbn [head_not] in H'. now rewrite H' in A.
    - injection E as -> E. apply andb_true_iff in A, B. f_equal. now apply (IH w').
  Qed.
  Theorem C84_days_refuted d one secs us : long d -> (2 < List.length d)%nat -> float_of (delta_text d one secs us) = None -> relative_time (delta_text d one secs us) = Err ValueError.
  Proof.
    intros [ND D] L N. rewrite C84_refused; [now rewrite N|]. intros r K E.
    assert (F : exists w x, short w /\ is_digit x = false /\ exists t, ended (delta_text d one secs us) (w ++ x :: t) \/ ended (delta_text d one secs us) (x :: t)).
    { destruct r as [m s|m s|m s f|[h m|h m|h m s|h m s f]|w p c]; cbn [rtime_ok clock_ok] in K; [| | |destruct K|..].
      - exists m, ":"%char. repeat split; try apply K. eexists. right. exact E.
      - exists m, ":"%char. repeat split; try apply K. eexists. left. exact E.
      - exists m, ":"%char. repeat split; try apply K. eexists. left. exact E.
      - exists h, ":"%char. repeat split; try apply K. eexists. left. exact E.
      - exists h, ":"%char. repeat split; try apply K. eexists. left. exact E.
      - exists h, ":"%char. repeat split; try apply K. eexists. left. exact E.
      - exists w, " "%char. repeat split; try apply K. cbn [rtime_text] in E. destruct p; eexists; left; exact E. }
    destruct F as (w & x & [W1 W2] & X & t & F). unfold delta_text in F. assert (H : head_not is_digit ((if one then txt " day" else txt " days") ++ txt ", " ++ day_time_text secs us)) by (destruct one; reflexivity).
    destruct F as [[F|F]|[F|F]]; rewrite <- ?app_assoc in F.
    - apply split_digits in F; [|assumption..]. subst w. lia.
    - apply split_digits in F; [|assumption..]. subst w. lia.
    - apply (split_digits d []) in F; [|assumption|reflexivity|assumption..]. now subst d.
    - apply (split_digits d []) in F; [|assumption|reflexivity|assumption..]. now subst d.
  Qed.
End Theorems.

(** Hypotheses: times of several kinds, a time that Python prints, and an ambiguous one *)
Definition no_float (_ : chars) : option Q := None.
Example C84_hypotheses :
  rtime_ok (Days (txt "2") true (Some (HMSF (txt "3") (txt "04") (txt "5") (txt "25")))) /\
  rtime_text (Days (txt "2") true (Some (HMSF (txt "3") (txt "04") (txt "5") (txt "25")))) = txt "2 days, 3:04:5.25" /\
  (rtime_value (Days (txt "2") true (Some (HMSF (txt "3") (txt "04") (txt "5") (txt "25")))) == 73538100 # 400)%Q /\
  map (fun t => match relative_time no_float (txt t) with Ok q => Some (Qred q) | Err _ => None end) ["1:30."; ":1:30"; "1:30:"; "1:30"; "1:02:03.5"; "1 day"; "2 days, 3:04:5.25"; "100 days"]%string =
    [Some (90 # 1); Some (90 # 1); Some (5400 # 1); None; Some (7447 # 2); Some (86400 # 1); Some (735381 # 4); None]%Q /\
  delta_text (number 12) false 3723 500000 = txt "12 days, 1:02:03.500000" /\ long (txt "1") /\ long (txt "30") /\ colon (txt "1") (txt "30") = txt "1:30".
Proof.
  split; [repeat split; auto; discriminate|]. split; [reflexivity|]. split; [vm_compute; reflexivity|]. split; [vm_compute; reflexivity|]. split; [vm_compute; reflexivity|]. repeat split; discriminate.
Qed.
