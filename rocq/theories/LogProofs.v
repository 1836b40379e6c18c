(** LogProofs: the candump patterns on printed lines. *)
From Coq Require Import Ascii.
From Verif Require Import Base CSource Regex RegexLemmas Logreader LogSpec.
Local Open Scope string_scope.
Local Open Scope Z_scope.
Local Open Scope list_scope.

(** ** Digits *)
Definition digit_props (n : Z) : bool :=
  let c := hexdigit n in
  (hex_value c =? n) && hex_upper c && hex_any c && negb (is_space c) && negb (Ascii.eqb c " ") && (if n <? 10 then is_digit c else true) && non_space c
  && is_word c && dot c.
Lemma digit_ok n : 0 <= n < 16 -> digit_props n = true.
Proof.
  intros H; assert (A : forallb digit_props [0;1;2;3;4;5;6;7;8;9;10;11;12;13;14;15] = true) by (vm_compute; reflexivity).
  rewrite forallb_forall in A; apply A; cbn; lia.
Qed.
Ltac digit H := apply digit_ok in H; unfold digit_props in H; rewrite !andb_true_iff in H; destruct H as [[[[[[[[? ?] ?] ?] ?] ?] ?] ?] ?].
Lemma hexdigit_value n : 0 <= n < 16 -> hex_value (hexdigit n) = n.
Proof. intros H; digit H; lia. Qed.
Lemma hexdigit_upper n : 0 <= n < 16 -> hex_upper (hexdigit n) = true.
Proof. intros H; digit H; assumption. Qed.
Lemma hexdigit_any n : 0 <= n < 16 -> hex_any (hexdigit n) = true.
Proof. intros H; digit H; assumption. Qed.
Lemma hexdigit_space n : 0 <= n < 16 -> Ascii.eqb (hexdigit n) " " = false.
Proof. intros H; digit H; apply negb_true_iff; assumption. Qed.
Lemma hexdigit_dec n : 0 <= n < 10 -> is_digit (hexdigit n) = true.
Proof.
  intros H; assert (H' : 0 <= n < 16) by lia; digit H'.
  replace (n <? 10) with true in * by (symmetry; apply Z.ltb_lt; lia); assumption.
Qed.

Lemma hex_fixed_length w n : List.length (hex_fixed w n) = w.
Proof. revert n; induction w as [|w IH]; intros n; [reflexivity|]; cbn [hex_fixed]; rewrite app_length, IH; cbn; lia. Qed.
Lemma hex_fixed_upper w n : forallb hex_upper (hex_fixed w n) = true.
Proof.
  revert n; induction w as [|w IH]; intros n; [reflexivity|].
  cbn [hex_fixed]; rewrite forallb_app, IH; cbn [forallb]; rewrite hexdigit_upper by (apply Z.mod_pos_bound; lia); reflexivity.
Qed.
Lemma hex_int_snoc l c : hex_int (l ++ [c]) = 16 * hex_int l + hex_value c.
Proof. unfold hex_int; rewrite fold_left_app; reflexivity. Qed.
Lemma hex_int_fixed w n : 0 <= n < 16 ^ Z.of_nat w -> hex_int (hex_fixed w n) = n.
Proof.
  revert n; induction w as [|w IH]; intros n H.
  - cbn in *; lia.
  - rewrite Nat2Z.inj_succ, Z.pow_succ_r in H by lia.
    cbn [hex_fixed]; rewrite hex_int_snoc, IH, hexdigit_value.
    + pose proof (Z.div_mod n 16); lia.
    + apply Z.mod_pos_bound; lia.
    + split; [apply Z.div_pos; lia|apply Z.div_lt_upper_bound; lia].
Qed.
Lemma dec_fixed_length w n : List.length (dec_fixed w n) = w.
Proof. revert n; induction w as [|w IH]; intros n; [reflexivity|]; cbn [dec_fixed]; rewrite app_length, IH; cbn; lia. Qed.
Lemma dec_fixed_digit w n : forallb is_digit (dec_fixed w n) = true.
Proof.
  revert n; induction w as [|w IH]; intros n; [reflexivity|].
  cbn [dec_fixed]; rewrite forallb_app, IH; cbn [forallb]; rewrite hexdigit_dec by (apply Z.mod_pos_bound; lia); reflexivity.
Qed.
Lemma dec_int_fixed w n : 0 <= n < 10 ^ Z.of_nat w -> dec_int (dec_fixed w n) = n.
Proof.
  revert n; induction w as [|w IH]; intros n H.
  - cbn in *; lia.
  - rewrite Nat2Z.inj_succ, Z.pow_succ_r in H by lia.
    cbn [dec_fixed]; unfold dec_int in *; rewrite fold_left_app; cbn [fold_left]; rewrite IH, hexdigit_value.
    + pose proof (Z.div_mod n 10); lia.
    + pose proof (Z.mod_pos_bound n 10); lia.
    + split; [apply Z.div_pos; lia|apply Z.div_lt_upper_bound; lia].
Qed.

Lemma run_head p q w rest : run p w -> (forall x, p x = true -> q x = false) -> head_not q (w ++ rest).
Proof.
  intros [NE W] D; destruct w as [|x w]; [contradiction|].
  cbn in W; apply andb_true_iff in W; cbn; apply D, W.
Qed.
Lemma blank_head (q : ascii -> bool) w rest : blank w -> (forall x, is_space x = true -> q x = false) -> head_not q (w ++ rest).
Proof. apply run_head. Qed.

(** Inclusions and exclusions between classes *)
Definition classes_ok : bool :=
  forallb (fun n => let x := ascii_of_nat n in
    implb (is_space x) (negb (non_space x) && negb (hex_upper x) && negb (is_digit x) && negb (is_word x) && negb (num_dot x)) &&
    implb (hex_upper x) (non_space x && is_word x && dot x && hex_any x) &&
    implb (is_digit x) (hex_upper x && num_dot x)) (seq 0 256).
Lemma classes x :
  (is_space x = true -> non_space x = false /\ hex_upper x = false /\ is_digit x = false /\ is_word x = false /\ num_dot x = false) /\
  (hex_upper x = true -> is_space x = false /\ is_word x = true /\ dot x = true /\ hex_any x = true) /\
  (is_digit x = true -> hex_upper x = true /\ num_dot x = true).
Proof.
  assert (A : classes_ok = true) by (vm_compute; reflexivity).
  unfold classes_ok in A; rewrite forallb_forall in A.
  assert (I : In (nat_of_ascii x) (seq 0 256)) by (apply in_seq; pose proof (nat_ascii_bounded x); lia).
  apply A in I; rewrite ascii_nat_embedding in I; cbv zeta in I.
  unfold non_space in *.
  destruct (is_space x), (hex_upper x), (is_digit x), (is_word x), (num_dot x), (dot x), (hex_any x);
    cbn in I; try discriminate I; repeat split; intros; try discriminate; reflexivity.
Qed.
Lemma space_non x : is_space x = true -> non_space x = false. Proof. apply classes. Qed.
Lemma space_hex x : is_space x = true -> hex_upper x = false. Proof. apply classes. Qed.
Lemma space_digit x : is_space x = true -> is_digit x = false. Proof. apply classes. Qed.
Lemma space_word x : is_space x = true -> is_word x = false. Proof. apply classes. Qed.
Lemma hex_space x : hex_upper x = true -> is_space x = false. Proof. apply classes. Qed.
Lemma non_space_space x : non_space x = true -> is_space x = false. Proof. apply negb_true_iff. Qed.
Lemma digit_hex x : is_digit x = true -> hex_upper x = true. Proof. apply classes. Qed.
Lemma digit_space x : is_digit x = true -> is_space x = false. Proof. intros H; apply hex_space, digit_hex, H. Qed.

(** ** Data *)
Definition gstar {X} (r : re) (k : caps -> chars -> option X) : nat -> caps -> chars -> option X :=
  fix star (fuel : nat) (c : caps) (s : chars) : option X :=
  match fuel with
  | O => k c s
  | S f =>
      match rmatch r c s (fun c' s' => if Nat.ltb (List.length s') (List.length s) then star f c' s' else None) with
      | Some x => Some x
      | None => k c s
      end
  end.
Lemma gstar_S {X} r (k : caps -> chars -> option X) f c s :
  gstar r k (S f) c s =
  match rmatch r c s (fun c' s' => if Nat.ltb (List.length s') (List.length s) then gstar r k f c' s' else None) with
  | Some x => Some x
  | None => k c s
  end.
Proof. reflexivity. Qed.
Lemma star_gstar {X} r c s (k : caps -> chars -> option X) : rmatch (Star true r) c s k = gstar r k (List.length s) c s.
Proof. reflexivity. Qed.

Definition no_pair (p : ascii -> bool) (s : chars) : Prop := match s with a :: b :: _ => p a && p b = false | _ => True end.

Lemma spaces_forall n : forallb (is_char " ") (spaces n) = true.
Proof. induction n; [reflexivity|exact IHn]. Qed.

Lemma data_text_cons b n l : data_text ((b, n) :: l) = hex_fixed 2 b ++ spaces n ++ data_text l.
Proof. unfold data_text; cbn [flat_map fst snd]; rewrite <- app_assoc; reflexivity. Qed.
Lemma hex_fixed2 b : hex_fixed 2 b = [hexdigit (b / 16 mod 16); hexdigit (b mod 16)].
Proof. reflexivity. Qed.

Lemma data_head l tail : head_not (is_char " ") tail -> head_not (is_char " ") (data_text l ++ tail).
Proof.
  destruct l as [|[b n] l]; intros T; [exact T|].
  rewrite data_text_cons, hex_fixed2; cbn [app head_not].
  unfold is_char; rewrite Ascii.eqb_sym; apply hexdigit_space, Z.mod_pos_bound; lia.
Qed.

Lemma pair_none {X} p r c s (K : caps -> chars -> option X) : no_pair p s -> rmatch (Seq (hexpair p) r) c s K = None.
Proof.
  destruct s as [|a [|b s]]; intros H; cbn in *; [reflexivity|destruct (p a); reflexivity|].
  apply andb_false_iff in H; destruct H as [H|H]; rewrite H; [reflexivity|destruct (p a); reflexivity].
Qed.

Lemma data_gstar {X} (k : caps -> chars -> option X) c tail :
  k c tail <> None -> head_not (is_char " ") tail -> no_pair hex_upper tail ->
  forall l fuel, (List.length (data_text l ++ tail) <= fuel)%nat ->
  gstar (Seq (hexpair hex_upper) (Star true (ch " "))) k fuel c (data_text l ++ tail) = k c tail.
Proof.
  intros K T NP; induction l as [|[b n] l IH]; intros fuel F.
  - cbn [data_text flat_map app] in *; destruct fuel as [|f]; [reflexivity|].
    rewrite gstar_S, pair_none by exact NP; reflexivity.
  - rewrite data_text_cons, hex_fixed2 in *.
    rewrite <- !app_assoc in *; cbn [app List.length] in *; rewrite !app_length in F.
    destruct fuel as [|f]; [lia|].
    rewrite gstar_S; cbn [List.length].
    assert (M : rmatch (Seq (hexpair hex_upper) (Star true (ch " "))) c
                  (hexdigit (b / 16 mod 16) :: hexdigit (b mod 16) :: spaces n ++ data_text l ++ tail)
                  (fun c' s' => if Nat.ltb (List.length s') (S (S (List.length (spaces n ++ data_text l ++ tail))))
                                then gstar (Seq (hexpair hex_upper) (Star true (ch " "))) k f c' s' else None)
                = k c tail).
    { unfold hexpair at 1; cbn [rmatch].
      rewrite !hexdigit_upper by (apply Z.mod_pos_bound; lia).
      assert (E : (fun c' s' => if Nat.ltb (List.length s') (S (S (List.length (spaces n ++ data_text l ++ tail))))
                                then gstar (Seq (hexpair hex_upper) (Star true (ch " "))) k f c' s' else None) c (data_text l ++ tail)
                  = k c tail).
      { cbn beta.
        replace (Nat.ltb (List.length (data_text l ++ tail)) (S (S (List.length (spaces n ++ data_text l ++ tail))))) with true
          by (symmetry; apply Nat.ltb_lt; rewrite !app_length; lia).
        apply IH; rewrite app_length; lia. }
      etransitivity; [|exact E].
      apply (cstar_greedy (is_char " ")).
      - rewrite E; exact K.
      - apply spaces_forall.
      - apply data_head; exact T. }
    rewrite M; destruct (k c tail); [reflexivity|contradiction].
Qed.

Lemma unhexlify_data l : data_ok l ->
  unhexlify (filter (fun x => negb (Ascii.eqb x " ")) (data_text l)) = Ok (map fst l).
Proof.
  intros D; induction D as [|[b n] l B D IH]; [reflexivity|].
  rewrite data_text_cons, hex_fixed2, !filter_app.
  cbn [filter fst] in *.
  rewrite !hexdigit_space by (apply Z.mod_pos_bound; lia).
  cbn [negb app].
  replace (filter (fun x => negb (Ascii.eqb x " ")) (spaces n)) with (@nil ascii)
    by (clear; induction n as [|n IHn]; [reflexivity|exact IHn]).
  cbn [app unhexlify].
  rewrite !hexdigit_any by (apply Z.mod_pos_bound; lia); cbn [andb].
  rewrite IH; cbn [bind map fst]; rewrite !hexdigit_value by (apply Z.mod_pos_bound; lia).
  unfold byte_ok in B; do 3 f_equal.
  rewrite (Z.mod_small (b / 16)) by (split; [apply Z.div_pos; lia|apply Z.div_lt_upper_bound; lia]).
  pose proof (Z.div_mod b 16); lia.
Qed.

Lemma texteq_true s : texteq (txt s) s = true.
Proof. unfold texteq; destruct (list_eq_dec ascii_dec (txt s) (txt s)); [reflexivity|contradiction]. Qed.
Lemma texteq_false a s : a <> txt s -> texteq a s = false.
Proof. intros H; unfold texteq; destruct (list_eq_dec ascii_dec a (txt s)); [contradiction|reflexivity]. Qed.
Lemma texteq_head x l s : (match txt s with y :: _ => x <> y | [] => True end) -> texteq (x :: l) s = false.
Proof. intros H; apply texteq_false; intros E; destruct (txt s) as [|y r]; [discriminate|]; injection E as E _; contradiction. Qed.
Lemma hexdigit_neq n y : 0 <= n < 16 -> hex_upper y = false -> hexdigit n <> y.
Proof. intros H U E; rewrite <- E, hexdigit_upper in U by exact H; discriminate. Qed.
Lemma data_not_remote l : texteq (data_text l) "remote request" || texteq (data_text l) "R" = false.
Proof.
  destruct l as [|[b n] l]; [reflexivity|].
  rewrite data_text_cons, hex_fixed2; cbn [app].
  rewrite !texteq_head; [reflexivity|cbn|cbn]; apply hexdigit_neq; try (apply Z.mod_pos_bound; lia); reflexivity.
Qed.

(** ** The common part of the candump patterns *)
Definition fin : caps -> chars -> option caps := fun c _ => Some c.

Lemma tail_match c t : forallb dot t = true -> rmatch (seqs [any0l; Eol]) c t fin = Some c.
Proof.
  intros D; cbn [seqs]; unfold any0l.
  change (rmatch (Star false (Chr dot)) c t (fun c' s' => rmatch Eol c' s' fin) = Some c).
  rewrite <- (app_nil_r t) at 1.
  rewrite (cstar_exact false dot c t [] (fun c' s' => rmatch Eol c' s' fin)); [reflexivity| |exact D|exact I].
  intros x s DX; cbn; destruct s; [|reflexivity].
  unfold dot in DX; apply negb_true_iff in DX; rewrite DX; reflexivity.
Qed.

Definition after_data : list re := [sp0; Opt (Group "error_frame" (Lit (txt "ERRORFRAME"))); any0l; Eol].
Lemma after_quote c t : ascii_tail t -> rmatch (seqs after_data) c t fin = Some c.
Proof.
  intros T.
  assert (H : head_not is_space t /\ forallb dot t = true /\ head_not (Ascii.eqb "E") t).
  { destruct T as [ -> |(u & -> & U)]; [cbn; auto|]; cbn; rewrite U; auto. }
  destruct H as (H & D & E).
  unfold after_data; cbn [seqs].
  change (rmatch (Star true (Chr is_space)) c t (fun c' s' => rmatch (seqs [Opt (Group "error_frame" (Lit (txt "ERRORFRAME"))); any0l; Eol]) c' s' fin) = Some c).
  rewrite (cstar_head true is_space c t _ H).
  change (match rmatch (Group "error_frame" (Lit (txt "ERRORFRAME"))) c t (fun c' s' => rmatch (seqs [any0l; Eol]) c' s' fin) with
          | Some y => Some y | None => rmatch (seqs [any0l; Eol]) c t fin end = Some c).
  rewrite (tail_match c t D).
  destruct t as [|x t]; [rewrite nil_reject by reflexivity; reflexivity|].
  rewrite first_reject; [reflexivity|reflexivity|].
  cbn in E |- *; rewrite E; reflexivity.
Qed.
Lemma after_error c t : forallb dot t = true ->
  rmatch (seqs after_data) c (txt "ERRORFRAME" ++ t) fin = Some (("error_frame"%string, txt "ERRORFRAME") :: c).
Proof.
  intros D; unfold after_data; cbn [seqs].
  change (rmatch (Star true (Chr is_space)) c (txt "ERRORFRAME" ++ t)
    (fun c' s' => rmatch (seqs [Opt (Group "error_frame" (Lit (txt "ERRORFRAME"))); any0l; Eol]) c' s' fin) = Some (("error_frame"%string, txt "ERRORFRAME") :: c)).
  rewrite cstar_head by reflexivity.
  change (match rmatch (Lit (txt "ERRORFRAME")) c (txt "ERRORFRAME" ++ t)
                  (fun c' s' => rmatch (seqs [any0l; Eol]) (("error_frame"%string, consumed (txt "ERRORFRAME" ++ t) s') :: c') s' fin) with
          | Some y => Some y | None => rmatch (seqs [any0l; Eol]) c (txt "ERRORFRAME" ++ t) fin end
          = Some (("error_frame"%string, txt "ERRORFRAME") :: c)).
  rewrite lit_match, consumed_app, tail_match by exact D; reflexivity.
Qed.

Definition data_part : list re :=
  Group "can_data" (Alt (Lit (txt "remote request")) (Star true (Seq (hexpair hex_upper) (Star true (ch " "))))) :: after_data.

Lemma data_part_data c l t c' :
  head_not (is_char " ") t -> no_pair hex_upper t -> head_not (Ascii.eqb "r") t ->
  rmatch (seqs after_data) (("can_data"%string, data_text l) :: c) t fin = Some c' ->
  rmatch (seqs data_part) c (data_text l ++ t) fin = Some c'.
Proof.
  intros T NP R E.
  change (match rmatch (Lit (txt "remote request")) c (data_text l ++ t)
                  (fun c1 s1 => rmatch (seqs after_data) (("can_data"%string, consumed (data_text l ++ t) s1) :: c1) s1 fin) with
          | Some y => Some y
          | None => rmatch (Star true (Seq (hexpair hex_upper) (Star true (ch " ")))) c (data_text l ++ t)
                  (fun c1 s1 => rmatch (seqs after_data) (("can_data"%string, consumed (data_text l ++ t) s1) :: c1) s1 fin)
          end = Some c').
  assert (R1 : rmatch (Lit (txt "remote request")) c (data_text l ++ t)
                  (fun c1 s1 => rmatch (seqs after_data) (("can_data"%string, consumed (data_text l ++ t) s1) :: c1) s1 fin) = None).
  { assert (H : head_not (Ascii.eqb "r") (data_text l ++ t)).
    { destruct l as [|[b n] l]; [exact R|].
      rewrite data_text_cons, hex_fixed2; cbn [app head_not].
      apply Ascii.eqb_neq; intros X; symmetry in X; revert X; apply hexdigit_neq; [apply Z.mod_pos_bound; lia|reflexivity]. }
    destruct (data_text l ++ t) as [|x s]; [apply nil_reject; reflexivity|].
    apply first_reject; [reflexivity|]; cbn in H |- *; rewrite H; reflexivity. }
  rewrite R1, star_gstar, data_gstar; [| |exact T|exact NP|lia].
  - cbn beta; rewrite consumed_app; exact E.
  - cbn beta; rewrite consumed_app, E; discriminate.
Qed.

Lemma data_part_remote c w t c' :
  forallb is_space w = true -> head_not is_space t ->
  rmatch (seqs after_data) (("can_data"%string, txt "remote request") :: c) t fin = Some c' ->
  rmatch (seqs data_part) c (txt "remote request" ++ w ++ t) fin = Some c'.
Proof.
  intros W T E.
  set (s := txt "remote request" ++ w ++ t).
  change (match rmatch (Lit (txt "remote request")) c s
                  (fun c1 s1 => rmatch (seqs after_data) (("can_data"%string, consumed s s1) :: c1) s1 fin) with
          | Some y => Some y
          | None => rmatch (Star true (Seq (hexpair hex_upper) (Star true (ch " ")))) c s
                  (fun c1 s1 => rmatch (seqs after_data) (("can_data"%string, consumed s s1) :: c1) s1 fin)
          end = Some c').
  unfold s at 1; rewrite lit_match.
  unfold s at 1; rewrite consumed_app.
  assert (G : rmatch (seqs after_data) (("can_data"%string, txt "remote request") :: c) (w ++ t) fin = Some c').
  { unfold after_data in *; cbn [seqs] in *.
    revert E; generalize (Seq (Opt (Group "error_frame" (Lit (txt "ERRORFRAME")))) (Seq any0l Eol)); intros r E.
    change (rmatch (Star true (Chr is_space)) (("can_data"%string, txt "remote request") :: c) t (fun c1 s1 => rmatch r c1 s1 fin) = Some c') in E.
    change (rmatch (Star true (Chr is_space)) (("can_data"%string, txt "remote request") :: c) (w ++ t) (fun c1 s1 => rmatch r c1 s1 fin) = Some c').
    rewrite cstar_head in E by exact T.
    rewrite cstar_greedy; [exact E|rewrite E; discriminate|exact W|exact T]. }
  rewrite G; reflexivity.
Qed.

(** The columns before the data *)
Lemma columns_match c0 c payload c' :
  columns_ok c0 -> head_not is_space payload ->
  rmatch (seqs data_part) (("can_id"%string, candump_id (co_ext c0) (co_id c0)) :: ("channel"%string, co_channel c0) :: c) payload fin = Some c' ->
  rmatch (seqs candump_rest) c (columns_text c0 payload) fin = Some c'.
Proof.
  destruct c0 as [chn w1 ext id w2 len w3]; unfold columns_ok, columns_text; cbn [co_channel co_w1 co_ext co_id co_w2 co_len co_w3].
  intros (CH & W1 & ID & W2 & LEN & W3) P E.
  assert (IDR : run hex_upper (candump_id ext id)).
  { split; [|apply hex_fixed_upper].
    intros X; apply (f_equal (@List.length ascii)) in X; unfold candump_id in X; rewrite hex_fixed_length in X; destruct ext; discriminate. }
  unfold candump_rest; fold after_data; fold data_part.
  change (rmatch (Seq (Group "channel" (Plus true (Chr non_space))) (seqs (sp1 :: Group "can_id" (Plus true (Chr hex_upper)) :: sp1 ::
            ch "[" :: dig1 :: ch "]" :: sp0 :: data_part))) c
            (chn ++ w1 ++ candump_id ext id ++ w2 ++ "["%char :: len ++ "]"%char :: w3 ++ payload) fin = Some c').
  rewrite seq_gplus_exact; [|vm_compute; reflexivity|apply CH|apply CH|apply blank_head; [exact W1|exact space_non]].
  change (rmatch (Seq sp1 (seqs (Group "can_id" (Plus true (Chr hex_upper)) :: sp1 ::
            ch "[" :: dig1 :: ch "]" :: sp0 :: data_part))) (("channel"%string, chn) :: c)
            (w1 ++ candump_id ext id ++ w2 ++ "["%char :: len ++ "]"%char :: w3 ++ payload) fin = Some c').
  unfold sp1 at 1; rewrite seq_plus_exact; [|vm_compute; reflexivity|apply W1|apply W1|eapply run_head; [exact IDR|exact hex_space]].
  change (rmatch (Seq (Group "can_id" (Plus true (Chr hex_upper))) (seqs (sp1 ::
            ch "[" :: dig1 :: ch "]" :: sp0 :: data_part))) (("channel"%string, chn) :: c)
            (candump_id ext id ++ w2 ++ "["%char :: len ++ "]"%char :: w3 ++ payload) fin = Some c').
  rewrite seq_gplus_exact; [|vm_compute; reflexivity|apply IDR|apply IDR|apply blank_head; [exact W2|exact space_hex]].
  change (rmatch (Seq sp1 (seqs (
            ch "[" :: dig1 :: ch "]" :: sp0 :: data_part))) (("can_id"%string, candump_id ext id) :: ("channel"%string, chn) :: c)
            (w2 ++ "["%char :: len ++ "]"%char :: w3 ++ payload) fin = Some c').
  unfold sp1 at 1; rewrite seq_plus_exact; [|vm_compute; reflexivity|apply W2|apply W2|reflexivity].
  change (rmatch (Seq dig1 (seqs (ch "]" :: sp0 :: data_part))) (("can_id"%string, candump_id ext id) :: ("channel"%string, chn) :: c)
            (len ++ "]"%char :: w3 ++ payload) fin = Some c').
  unfold dig1; rewrite seq_plus_exact; [|vm_compute; reflexivity|apply LEN|apply LEN|reflexivity].
  change (rmatch (Star true (Chr is_space)) (("can_id"%string, candump_id ext id) :: ("channel"%string, chn) :: c)
            (w3 ++ payload) (fun c1 s1 => rmatch (seqs data_part) c1 s1 fin) = Some c').
  rewrite cstar_greedy; [exact E|rewrite E; discriminate|exact W3|exact P].
Qed.

(** ** The candump patterns on whole lines *)
Lemma not_space_paren : is_space "(" = false. Proof. reflexivity. Qed.

Lemma default_columns w0 c0 payload c' :
  forallb is_space w0 = true -> columns_ok c0 -> head_not is_space payload ->
  rmatch (seqs data_part) (("can_id"%string, candump_id (co_ext c0) (co_id c0)) :: ("channel"%string, co_channel c0) :: []) payload fin = Some c' ->
  re_match candump_default (w0 ++ columns_text c0 payload) = Some c'.
Proof.
  intros W0 C P E; unfold re_match; fold fin.
  change (rmatch (Seq sp0l (seqs candump_rest)) [] (w0 ++ columns_text c0 payload) fin = Some c').
  unfold sp0l; rewrite seq_star_exact; [|vm_compute; reflexivity|exact W0|].
  - apply columns_match; assumption.
  - apply (run_head non_space); [apply C|exact non_space_space].
Qed.

(** [candump_default] needs three columns: anything, hexadecimal digits, an opening bracket. *)
Lemma default_reject_hex w0 t1 w1 h y t2 :
  forallb is_space w0 = true -> run non_space t1 -> blank w1 -> forallb hex_upper h = true ->
  hex_upper y = false -> is_space y = false ->
  re_match candump_default (w0 ++ t1 ++ w1 ++ h ++ y :: t2) = None.
Proof.
  intros W0 T1 W1 H Y1 Y2; unfold re_match; fold fin.
  change (rmatch (Seq sp0l (Seq (Group "channel" (Plus true (Chr non_space))) (Seq sp1 (seqs (skipn 2 candump_rest))))) [] (w0 ++ t1 ++ w1 ++ h ++ y :: t2) fin = None).
  assert (HS : head_not is_space (h ++ y :: t2)).
  { destruct h as [|x h]; [exact Y2|]; cbn in H |- *; apply andb_true_iff in H; apply hex_space, H. }
  unfold sp0l; rewrite seq_star_exact; [|vm_compute; reflexivity|exact W0|apply (run_head non_space); [exact T1|exact non_space_space]].
  rewrite seq_gplus_exact; [|vm_compute; reflexivity|apply T1|apply T1|apply blank_head; [exact W1|exact space_non]].
  unfold sp1 at 1; rewrite seq_plus_exact; [|vm_compute; reflexivity|apply W1|apply W1|exact HS].
  destruct h as [|x h]; [apply first_reject; [reflexivity|cbn; rewrite Y1; reflexivity]|].
  change (rmatch (Seq (Group "can_id" (Plus true (Chr hex_upper))) (seqs (skipn 3 candump_rest))) [("channel"%string, t1)] ((x :: h) ++ y :: t2) fin = None).
  rewrite seq_gplus_exact; [|vm_compute; reflexivity|discriminate|exact H|exact Y1].
  apply first_reject; [reflexivity|cbn; rewrite Y2; reflexivity].
Qed.

Lemma default_reject_bracket w0 t1 w1 h w2 y t2 :
  forallb is_space w0 = true -> run non_space t1 -> blank w1 -> run hex_upper h -> blank w2 ->
  y <> "["%char -> is_space y = false ->
  re_match candump_default (w0 ++ t1 ++ w1 ++ h ++ w2 ++ y :: t2) = None.
Proof.
  intros W0 T1 W1 H W2 Y1 Y2; unfold re_match; fold fin.
  change (rmatch (Seq sp0l (Seq (Group "channel" (Plus true (Chr non_space))) (Seq sp1 (Seq (Group "can_id" (Plus true (Chr hex_upper))) (Seq sp1 (seqs (skipn 4 candump_rest)))))))
    [] (w0 ++ t1 ++ w1 ++ h ++ w2 ++ y :: t2) fin = None).
  unfold sp0l; rewrite seq_star_exact; [|vm_compute; reflexivity|exact W0|apply (run_head non_space); [exact T1|exact non_space_space]].
  rewrite seq_gplus_exact; [|vm_compute; reflexivity|apply T1|apply T1|apply blank_head; [exact W1|exact space_non]].
  unfold sp1 at 1; rewrite seq_plus_exact; [|vm_compute; reflexivity|apply W1|apply W1|eapply run_head; [exact H|exact hex_space]].
  rewrite seq_gplus_exact; [|vm_compute; reflexivity|apply H|apply H|apply blank_head; [exact W2|exact space_hex]].
  unfold sp1 at 1; rewrite seq_plus_exact; [|vm_compute; reflexivity|apply W2|apply W2|exact Y2].
  apply first_reject; [reflexivity|].
  change (is_char "[" y || false = false); rewrite orb_false_r; apply Ascii.eqb_neq; congruence.
Qed.

Lemma hex_or_not t : run non_space t -> run hex_upper t \/ exists h y u, t = h ++ y :: u /\ forallb hex_upper h = true /\ hex_upper y = false /\ is_space y = false.
Proof.
  intros [NE N]; destruct (forallb hex_upper t) eqn:H; [left; split; assumption|right].
  clear NE; revert N H; induction t as [|x t IH]; intros N H; [discriminate|].
  cbn in N, H; apply andb_true_iff in N; destruct N as [NX N].
  destruct (hex_upper x) eqn:HX.
  - destruct (IH N H) as (h & y & u & -> & HH & Y & S); exists (x :: h), y, u; cbn; rewrite HX; auto.
  - exists [], x, t; repeat split; auto; apply non_space_space; exact NX.
Qed.

(** Two columns before a hexadecimal digit that is not preceded by a bracket *)
Lemma default_reject w0 t1 w1 t2 w2 y t3 :
  forallb is_space w0 = true -> run non_space t1 -> blank w1 -> run non_space t2 -> blank w2 -> hex_upper y = true ->
  re_match candump_default (w0 ++ t1 ++ w1 ++ t2 ++ w2 ++ y :: t3) = None.
Proof.
  intros W0 T1 W1 T2 W2 Y; destruct (hex_or_not t2 T2) as [H|(h & z & u & -> & H & Z1 & Z2)].
  - apply default_reject_bracket; auto; [intros ->; discriminate Y|apply hex_space, Y].
  - rewrite <- !app_assoc; cbn [app]; apply default_reject_hex; assumption.
Qed.

Lemma paren_run ts : forallb non_space ts = true -> run non_space ("("%char :: ts ++ [")"%char]).
Proof. intros H; split; [discriminate|]; cbn; rewrite forallb_app, H; reflexivity. Qed.
Lemma num_dot_non ts : forallb num_dot ts = true -> forallb non_space ts = true.
Proof.
  intros H; rewrite forallb_forall in *; intros x X; apply H in X.
  unfold non_space; destruct (is_space x) eqn:S; [|reflexivity].
  destruct (classes x) as [C _]; destruct (C S) as (_ & _ & _ & _ & N); congruence.
Qed.

Lemma candump_id_cons ext id : exists y t, candump_id ext id = y :: t /\ hex_upper y = true.
Proof.
  pose proof (hex_fixed_upper (if ext then 8 else 3) id) as U; fold (candump_id ext id) in U.
  pose proof (hex_fixed_length (if ext then 8 else 3) id) as L; fold (candump_id ext id) in L.
  destruct (candump_id ext id) as [|y t]; [destruct ext; discriminate|].
  cbn in U; apply andb_true_iff in U; exists y, t; split; [reflexivity|apply U].
Qed.

(** A timestamped line is not taken for one without timestamp. *)
Lemma stamped_not_default w0 ts wt c0 payload :
  forallb is_space w0 = true -> forallb non_space ts = true -> blank wt -> columns_ok c0 ->
  re_match candump_default (w0 ++ "("%char :: ts ++ ")"%char :: wt ++ columns_text c0 payload) = None.
Proof.
  intros W0 T WT (CH & W1 & _).
  unfold columns_text; destruct (candump_id_cons (co_ext c0) (co_id c0)) as (y & t & -> & Y).
  replace (w0 ++ "("%char :: ts ++ ")"%char :: wt ++ co_channel c0 ++ co_w1 c0 ++ (y :: t) ++ co_w2 c0 ++ "["%char :: co_len c0 ++ "]"%char :: co_w3 c0 ++ payload)
    with (w0 ++ ("("%char :: ts ++ [")"%char]) ++ wt ++ co_channel c0 ++ co_w1 c0 ++ y :: t ++ co_w2 c0 ++ "["%char :: co_len c0 ++ "]"%char :: co_w3 c0 ++ payload)
    by (cbn [app]; rewrite <- !app_assoc; reflexivity).
  apply default_reject; auto; apply paren_run; exact T.
Qed.

Lemma timestamped_columns w0 ts wt c0 payload c' :
  forallb is_space w0 = true -> run num_dot ts -> blank wt -> columns_ok c0 -> head_not is_space payload ->
  rmatch (seqs data_part) (("can_id"%string, candump_id (co_ext c0) (co_id c0)) :: ("channel"%string, co_channel c0) :: [("timestamp"%string, ts)]) payload fin = Some c' ->
  re_match candump_timestamped (w0 ++ "("%char :: ts ++ ")"%char :: wt ++ columns_text c0 payload) = Some c'.
Proof.
  intros W0 T WT C P E; unfold re_match; fold fin.
  change (rmatch (Seq sp0l (Seq (ch "(") (Seq (Group "timestamp" (Plus true (Chr num_dot))) (Seq (ch ")") (Seq sp1 (seqs candump_rest)))))) []
    (w0 ++ "("%char :: ts ++ ")"%char :: wt ++ columns_text c0 payload) fin = Some c').
  unfold sp0l; rewrite seq_star_exact; [|vm_compute; reflexivity|exact W0|reflexivity].
  unfold ch at 1; rewrite seq_chr; change (is_char "(" "(") with true; cbv iota.
  rewrite seq_gplus_exact; [|vm_compute; reflexivity|apply T|apply T|reflexivity].
  unfold ch at 1; rewrite seq_chr; change (is_char ")" ")") with true; cbv iota.
  unfold sp1; rewrite seq_plus_exact; [|vm_compute; reflexivity|apply WT|apply WT|apply (run_head non_space); [apply C|exact non_space_space]].
  apply columns_match; assumption.
Qed.

(** Log format: [(ts) channel id#...] *)
Lemma timestamped_reject_log w0 ts wt chn w1 id rest :
  forallb is_space w0 = true -> run num_dot ts -> blank wt -> run non_space chn -> blank w1 -> run hex_upper id ->
  re_match candump_timestamped (w0 ++ "("%char :: ts ++ ")"%char :: wt ++ chn ++ w1 ++ id ++ "#"%char :: rest) = None.
Proof.
  intros W0 T WT C W1 ID; unfold re_match; fold fin.
  change (rmatch (Seq sp0l (Seq (ch "(") (Seq (Group "timestamp" (Plus true (Chr num_dot))) (Seq (ch ")") (Seq sp1
    (Seq (Group "channel" (Plus true (Chr non_space))) (Seq sp1 (Seq (Group "can_id" (Plus true (Chr hex_upper))) (seqs (skipn 3 candump_rest)))))))))) []
    (w0 ++ "("%char :: ts ++ ")"%char :: wt ++ chn ++ w1 ++ id ++ "#"%char :: rest) fin = None).
  unfold sp0l; rewrite seq_star_exact; [|vm_compute; reflexivity|exact W0|reflexivity].
  unfold ch at 1; rewrite seq_chr; change (is_char "(" "(") with true; cbv iota.
  rewrite seq_gplus_exact; [|vm_compute; reflexivity|apply T|apply T|reflexivity].
  unfold ch at 1; rewrite seq_chr; change (is_char ")" ")") with true; cbv iota.
  unfold sp1 at 1; rewrite seq_plus_exact; [|vm_compute; reflexivity|apply WT|apply WT|apply (run_head non_space); [exact C|exact non_space_space]].
  rewrite seq_gplus_exact; [|vm_compute; reflexivity|apply C|apply C|apply blank_head; [exact W1|exact space_non]].
  unfold sp1 at 1; rewrite seq_plus_exact; [|vm_compute; reflexivity|apply W1|apply W1|eapply run_head; [exact ID|exact hex_space]].
  rewrite seq_gplus_exact; [|vm_compute; reflexivity|apply ID|apply ID|reflexivity].
  apply first_reject; reflexivity.
Qed.

Definition log_rest : list re :=
  [Opt (Seq (ch "#") (Chr hex_upper)); Group "can_data" (Alt (ch "R") (Star true (hexpair hex_any)));
   Opt (Seq sp1 (Chr (fun c => Ascii.eqb c "R" || Ascii.eqb c "T"))); Eol].
Lemma log_columns w0 ts wt chn w1 id rest :
  forallb is_space w0 = true -> run num_dot ts -> blank wt -> run non_space chn -> blank w1 -> run hex_upper id ->
  re_match candump_log (w0 ++ "("%char :: ts ++ ")"%char :: wt ++ chn ++ w1 ++ id ++ "#"%char :: rest) =
  rmatch (seqs log_rest) [("can_id"%string, id); ("channel"%string, chn); ("timestamp"%string, ts)] rest fin.
Proof.
  intros W0 T WT C W1 ID; unfold re_match; fold fin.
  change (rmatch (Seq sp0l (Seq (ch "(") (Seq (Group "timestamp" (Plus false (Chr num_dot))) (Seq (ch ")") (Seq sp1l
    (Seq (Group "channel" (Plus true (Chr non_space))) (Seq sp1l (Seq (Group "can_id" (Plus false (Chr hex_upper))) (Seq (ch "#") (seqs log_rest)))))))))) []
    (w0 ++ "("%char :: ts ++ ")"%char :: wt ++ chn ++ w1 ++ id ++ "#"%char :: rest) fin =
    rmatch (seqs log_rest) [("can_id"%string, id); ("channel"%string, chn); ("timestamp"%string, ts)] rest fin).
  unfold sp0l; rewrite seq_star_exact; [|vm_compute; reflexivity|exact W0|reflexivity].
  unfold ch at 1; rewrite seq_chr; change (is_char "(" "(") with true; cbv iota.
  rewrite seq_gplus_exact; [|vm_compute; reflexivity|apply T|apply T|reflexivity].
  unfold ch at 1; rewrite seq_chr; change (is_char ")" ")") with true; cbv iota.
  unfold sp1l at 1; rewrite seq_plus_exact; [|vm_compute; reflexivity|apply WT|apply WT|apply (run_head non_space); [exact C|exact non_space_space]].
  rewrite seq_gplus_exact; [|vm_compute; reflexivity|apply C|apply C|apply blank_head; [exact W1|exact space_non]].
  unfold sp1l at 1; rewrite seq_plus_exact; [|vm_compute; reflexivity|apply W1|apply W1|eapply run_head; [exact ID|exact hex_space]].
  rewrite seq_gplus_exact; [|vm_compute; reflexivity|apply ID|apply ID|reflexivity].
  reflexivity.
Qed.

(** The data column of the log format *)
Definition bytes_text (l : list Z) : chars := flat_map (hex_fixed 2) l.
Lemma bytes_gstar {X} (k : caps -> chars -> option X) c tail :
  k c tail <> None -> no_pair hex_any tail ->
  forall l fuel, (List.length (bytes_text l ++ tail) <= fuel)%nat ->
  gstar (hexpair hex_any) k fuel c (bytes_text l ++ tail) = k c tail.
Proof.
  intros K NP; induction l as [|b l IH]; intros fuel F.
  - cbn [bytes_text flat_map app] in *; destruct fuel as [|f]; [reflexivity|].
    rewrite gstar_S.
    change (rmatch (hexpair hex_any) c tail) with (fun K : caps -> chars -> option X => rmatch (hexpair hex_any) c tail K).
    cbn beta.
    replace (rmatch (hexpair hex_any) c tail _) with (@None X); [reflexivity|].
    symmetry; exact (pair_none hex_any Eps c tail _ NP).
  - unfold bytes_text in *; cbn [flat_map] in *; fold (bytes_text l) in *; rewrite hex_fixed2 in *; cbn [app List.length] in *.
    destruct fuel as [|f]; [lia|].
    rewrite gstar_S; unfold hexpair at 1; cbn [rmatch].
    rewrite !hexdigit_any by (apply Z.mod_pos_bound; lia).
    replace (Nat.ltb (List.length (bytes_text l ++ tail)) _) with true by (symmetry; apply Nat.ltb_lt; cbn; lia).
    rewrite IH by lia; destruct (k c tail); [reflexivity|contradiction].
Qed.

Definition rt_tail (t : chars) : Prop := t = [] \/ exists w x, blank w /\ (x = "R"%char \/ x = "T"%char) /\ t = w ++ [x].
Lemma rt_match c t : rt_tail t -> rmatch (seqs [Opt (Seq sp1 (Chr (fun c => Ascii.eqb c "R" || Ascii.eqb c "T"))); Eol]) c t fin = Some c.
Proof.
  intros [ -> |(w & x & W & X & -> )]; [reflexivity|].
  change (match rmatch (Seq sp1 (Chr (fun c => Ascii.eqb c "R" || Ascii.eqb c "T"))) c (w ++ [x]) (fun c' s' => rmatch Eol c' s' fin) with
          | Some y => Some y | None => rmatch Eol c (w ++ [x]) fin end = Some c).
  unfold sp1; rewrite seq_plus_exact; [|vm_compute; reflexivity|apply W|apply W|destruct X as [ -> | -> ]; reflexivity].
  destruct X as [ -> | -> ]; reflexivity.
Qed.
Lemma rt_heads t : rt_tail t -> no_pair hex_any t /\ head_not (Ascii.eqb "#") t /\ head_not (Ascii.eqb "R") t.
Proof.
  intros [ -> |(w & x & W & X & -> )]; [cbn; auto|].
  destruct W as [NE W]; destruct w as [|y w]; [contradiction|].
  cbn in W; apply andb_true_iff in W; destruct W as [Y W].
  assert (A : hex_any y = false /\ Ascii.eqb "#" y = false /\ Ascii.eqb "R" y = false).
  { clear - Y; destruct y as [[] [] [] [] [] [] [] []]; try discriminate Y; vm_compute; auto. }
  destruct A as (A & B & C); cbn [app no_pair head_not].
  split; [|split; assumption].
  destruct (w ++ [x]); [exact I|]; rewrite A; reflexivity.
Qed.

(** The flags digit of CAN FD: two sharps *)
Definition fd_text (f : option ascii) : chars := match f with Some x => ["#"%char; x] | None => [] end.
Definition fd_ok (f : option ascii) : Prop := match f with Some x => hex_upper x = true | None => True end.

Lemma log_data f l t c :
  fd_ok f -> rt_tail t ->
  rmatch (seqs log_rest) c (fd_text f ++ bytes_text l ++ t) fin = Some (("can_data"%string, bytes_text l) :: c).
Proof.
  intros F T; destruct (rt_heads t T) as (NP & H1 & H2).
  set (r := seqs [Group "can_data" (Alt (ch "R") (Star true (hexpair hex_any)));
                   Opt (Seq sp1 (Chr (fun c => Ascii.eqb c "R" || Ascii.eqb c "T"))); Eol]).
  assert (HB : head_not (Ascii.eqb "#") (bytes_text l ++ t) /\ head_not (Ascii.eqb "R") (bytes_text l ++ t)).
  { destruct l as [|b l]; [split; assumption|].
    unfold bytes_text; cbn [flat_map]; rewrite hex_fixed2; cbn [app head_not].
    split; apply Ascii.eqb_neq; intros X; symmetry in X; revert X; apply hexdigit_neq; try (apply Z.mod_pos_bound; lia); reflexivity. }
  destruct HB as [HB1 HB2].
  assert (E : rmatch r c (bytes_text l ++ t) fin = Some (("can_data"%string, bytes_text l) :: c)).
  { set (s := bytes_text l ++ t).
    set (k := fun c' s' => rmatch (seqs [Opt (Seq sp1 (Chr (fun c => Ascii.eqb c "R" || Ascii.eqb c "T"))); Eol])
                              (("can_data"%string, consumed s s') :: c') s' fin).
    change (match rmatch (ch "R") c s k with Some y => Some y | None => rmatch (Star true (hexpair hex_any)) c s k end
            = Some (("can_data"%string, bytes_text l) :: c)).
    assert (KT : k c t = Some (("can_data"%string, bytes_text l) :: c)).
    { unfold k, s; rewrite consumed_app, rt_match by exact T; reflexivity. }
    replace (rmatch (ch "R") c s k) with (@None caps).
    - rewrite star_gstar; unfold s; rewrite bytes_gstar; [exact KT|rewrite KT; discriminate|exact NP|lia].
    - symmetry; fold s in HB2; destruct s as [|x s']; [reflexivity|].
      cbn in HB2 |- *; unfold is_char; rewrite HB2; reflexivity. }
  change (match rmatch (Seq (ch "#") (Chr hex_upper)) c (fd_text f ++ bytes_text l ++ t) (fun c' s' => rmatch r c' s' fin) with
          | Some y => Some y | None => rmatch r c (fd_text f ++ bytes_text l ++ t) fin end = Some (("can_data"%string, bytes_text l) :: c)).
  destruct f as [x|]; cbn [fd_text app].
  - unfold ch at 1; rewrite seq_chr; change (is_char "#" "#") with true; cbv iota.
    cbn [fd_ok] in F; cbn [rmatch]; rewrite F, E; reflexivity.
  - destruct (bytes_text l ++ t) as [|x s']; [rewrite nil_reject by reflexivity; exact E|].
    rewrite first_reject; [exact E|reflexivity|].
    cbn in HB1 |- *; unfold is_char; rewrite HB1; reflexivity.
Qed.

Lemma log_remote t c : rt_tail t ->
  rmatch (seqs log_rest) c ("R"%char :: t) fin = Some (("can_data"%string, txt "R") :: c).
Proof.
  intros T; set (r := seqs [Group "can_data" (Alt (ch "R") (Star true (hexpair hex_any)));
                   Opt (Seq sp1 (Chr (fun c => Ascii.eqb c "R" || Ascii.eqb c "T"))); Eol]).
  assert (E : rmatch r c ("R"%char :: t) fin = Some (("can_data"%string, txt "R") :: c)).
  { set (k := fun c' s' => rmatch (seqs [Opt (Seq sp1 (Chr (fun c => Ascii.eqb c "R" || Ascii.eqb c "T"))); Eol])
                              (("can_data"%string, consumed ("R"%char :: t) s') :: c') s' fin).
    change (match k c t with Some y => Some y | None => rmatch (Star true (hexpair hex_any)) c ("R"%char :: t) k end
            = Some (("can_data"%string, txt "R") :: c)).
    unfold k at 1; change ("R"%char :: t) with (txt "R" ++ t); rewrite consumed_app, rt_match by exact T; reflexivity. }
  change (match rmatch (Seq (ch "#") (Chr hex_upper)) c ("R"%char :: t) (fun c' s' => rmatch r c' s' fin) with
          | Some y => Some y | None => rmatch r c ("R"%char :: t) fin end = Some (("can_data"%string, txt "R") :: c)).
  rewrite first_reject by reflexivity; exact E.
Qed.

(** Absolute dates *)
Lemma paren_digits_reject g w0 d y rest (l : list re) :
  forallb is_space w0 = true -> run is_digit d -> num_dot y = false -> y <> ")"%char ->
  re_match (seqs (sp0l :: ch "(" :: Group "timestamp" (Plus g (Chr num_dot)) :: ch ")" :: sp1 :: l)) (w0 ++ "("%char :: d ++ y :: rest) = None.
Proof.
  intros W0 [DN D] Y1 Y2; unfold re_match; fold fin.
  assert (DD : forallb num_dot d = true).
  { rewrite forallb_forall in *; intros x X; apply D in X; apply classes in X; apply X. }
  change (rmatch (Seq sp0l (Seq (ch "(") (Seq (Group "timestamp" (Plus g (Chr num_dot))) (Seq (ch ")") (seqs (sp1 :: l)))))) []
    (w0 ++ "("%char :: d ++ y :: rest) fin = None).
  unfold sp0l; rewrite seq_star_exact; [|vm_compute; reflexivity|exact W0|reflexivity].
  unfold ch at 1; rewrite seq_chr; change (is_char "(" "(") with true; cbv iota.
  rewrite seq_gplus_exact; [|vm_compute; reflexivity|exact DN|exact DD|exact Y1].
  unfold ch; rewrite seq_chr; unfold is_char.
  replace (Ascii.eqb ")" y) with false by (symmetry; apply Ascii.eqb_neq; congruence); reflexivity.
Qed.

Lemma times_run {X} p c : forall n w rest (k : caps -> chars -> option X),
  List.length w = n -> forallb p w = true -> rmatch (Times n (Chr p)) c (w ++ rest) k = k c rest.
Proof.
  induction n as [|n IH]; intros w rest k L W; [destruct w; [reflexivity|discriminate]|].
  destruct w as [|x w]; [discriminate|].
  cbn in W; apply andb_true_iff in W; destruct W as [WX W].
  change (Times (S n) (Chr p)) with (Seq (Chr p) (Times n (Chr p))).
  cbn [app]; rewrite seq_chr, WX; apply IH; [injection L; auto|exact W].
Qed.

Lemma seq_times {X} r c n v rest (k : caps -> chars -> option X) :
  rmatch (Seq (digits_n n) r) c (dec_fixed n v ++ rest) k = rmatch r c rest k.
Proof.
  change (rmatch (digits_n n) c (dec_fixed n v ++ rest) (fun c' s' => rmatch r c' s' k) = rmatch r c rest k).
  unfold digits_n; rewrite times_run; [reflexivity|apply dec_fixed_length|apply dec_fixed_digit].
Qed.

Lemma date_match {X} d c rest (k : caps -> chars -> option X) :
  run is_digit (d_frac d) -> (forall x s, is_digit x = true -> k c (x :: s) = None) -> head_not is_digit rest ->
  rmatch (seqs [digits_n 4; ch "-"; digits_n 2; ch "-"; digits_n 2; ch " "; digits_n 2; ch ":"; digits_n 2; ch ":"; digits_n 2; ch "."; dig1])
    c (date_text d ++ rest) k = k c rest.
Proof.
  intros F K R; unfold date_text; cbn [seqs].
  repeat (rewrite <- app_assoc; cbn [app]).
  do 6 (rewrite seq_times; unfold ch at 1; rewrite seq_chr;
        match goal with |- context [if ?b then _ else _] => change b with true end; cbv iota).
  destruct (d_frac d) as [|x w]; [destruct F; contradiction|].
  destruct F as [_ F]; cbn in F; apply andb_true_iff in F; destruct F as [FX F].
  unfold dig1, Plus; cbn [app rmatch]; rewrite FX.
  apply (cstar_exact true is_digit c w rest k); assumption.
Qed.

Lemma absolute_columns w0 d wt c0 payload c' :
  forallb is_space w0 = true -> run is_digit (d_frac d) -> blank wt -> columns_ok c0 -> head_not is_space payload ->
  rmatch (seqs data_part) (("can_id"%string, candump_id (co_ext c0) (co_id c0)) :: ("channel"%string, co_channel c0) :: [("timestamp"%string, date_text d)]) payload fin = Some c' ->
  re_match candump_absolute (w0 ++ "("%char :: date_text d ++ ")"%char :: wt ++ columns_text c0 payload) = Some c'.
Proof.
  intros W0 T WT C P E; unfold re_match; fold fin.
  change (rmatch (Seq sp0l (Seq (ch "(") (Seq (Group "timestamp" (seqs [digits_n 4; ch "-"; digits_n 2; ch "-"; digits_n 2; ch " "; digits_n 2; ch ":"; digits_n 2; ch ":"; digits_n 2; ch "."; dig1]))
     (Seq (ch ")") (Seq sp1 (seqs candump_rest)))))) []
    (w0 ++ "("%char :: date_text d ++ ")"%char :: wt ++ columns_text c0 payload) fin = Some c').
  unfold sp0l; rewrite seq_star_exact; [|vm_compute; reflexivity|exact W0|reflexivity].
  unfold ch at 1; rewrite seq_chr; change (is_char "(" "(") with true; cbv iota.
  set (s := date_text d ++ ")"%char :: wt ++ columns_text c0 payload).
  match goal with |- rmatch (Seq (Group _ ?r) ?q) [] s fin = _ =>
    change (rmatch r [] s (fun c1 s1 => rmatch q (("timestamp"%string, consumed s s1) :: c1) s1 fin) = Some c') end.
  unfold s at 1; rewrite date_match; [|exact T| |reflexivity].
  - unfold s; rewrite consumed_app.
    unfold ch at 1; rewrite seq_chr; change (is_char ")" ")") with true; cbv iota.
    unfold sp1; rewrite seq_plus_exact; [|vm_compute; reflexivity|apply WT|apply WT|apply (run_head non_space); [apply C|exact non_space_space]].
    apply columns_match; assumption.
  - intros x s1 D; apply first_reject; [reflexivity|].
    clear - D; cbn; destruct x as [[] [] [] [] [] [] [] []]; try discriminate D; reflexivity.
Qed.
