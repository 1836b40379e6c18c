(** C47: texts in a DBC file. *)
From Coq Require Import Ascii.
From Verif Require Import Base CSource CNames Regex DecText DbcToken DbcLex.
Local Open Scope string_scope.
Local Open Scope Z_scope.
Local Open Scope list_scope.

(** The text [c] as a comment is written (dbc.py:694-720): escaped and between quotes. *)
Definition quoted_comment (c : chars) : chars := quote :: escape c ++ [quote].
(** The text [c] as units, choices, bus comments and attribute strings are written (dbc.py:175, 207, 711, 735): as it is. *)
Definition quoted_text (c : chars) : chars := quote :: c ++ [quote].
(** "[c] is read back": the first token is the string [c], and the others are those of the text that follows. *)
Definition reads_back (written c rest : chars) : Prop :=
  tokenize (written ++ rest) = match tokenize rest with Some ts => Some (("STRING", c) :: ts) | None => None end.

(** Every comment that does not end in a backslash is read back unchanged, whatever follows it. *)
Theorem C47_comment : forall c rest, (forall c', c <> c' ++ [backslash]) -> reads_back (quoted_comment c) c rest.
Proof.
  intros c rest H. unfold reads_back, quoted_comment. cbn [app]. rewrite <- app_assoc. cbn [app].
  rewrite (tokenize_string (escape c) rest).
  - rewrite unescape_escape. destruct (tokenize rest); reflexivity.
  - apply escape_body. destruct (ends_in_backslash c) eqn:E; [|reflexivity]. exfalso.
    assert (G : exists c', c = c' ++ [backslash]); [|destruct G as [c' G]; exact (H c' G)].
    clear H rest. induction c as [|x c IH]; [discriminate|]. destruct c as [|y c].
    + change (Ascii.eqb x backslash = true) in E. apply Ascii.eqb_eq in E. subst x. exists []. reflexivity.
    + destruct IH as [c' ->]; [exact E|]. exists (x :: c'). reflexivity.
Qed.
Example ex_comment : reads_back (quoted_comment (txt "a ""quoted"" \ word and \""")) (txt "a ""quoted"" \ word and \""") (txt "; CM_ ""next""").
Proof. apply C47_comment. intros c'. rewrite <- (rev_involutive c'). destruct (rev c') as [|x r]; [discriminate|].
  intros E. apply (f_equal (@rev ascii)) in E. rewrite rev_app_distr in E. vm_compute in E. discriminate E. Qed.

(** A comment that ends in a backslash is not read back when another text follows in the file. *)
Theorem C47_trailing_backslash_refuted : exists c rest, tokenize rest <> None /\ ~ reads_back (quoted_comment c) c rest.
Proof.
  exists (txt "path C:\"), (txt ("; CM_ ""next"";" ++ String newline "")). split.
  - intros E. vm_compute in E. discriminate E.
  - unfold reads_back. intros E. vm_compute in E. discriminate E.
Qed.

(** Texts that are not escaped are read back unchanged when they hold no quote and do not end in a backslash... *)
Theorem C47_plain_text : forall c rest, ~ In quote c -> (forall c', c <> c' ++ [backslash]) -> reads_back (quoted_text c) c rest.
Proof.
  intros c rest N H. pose proof (C47_comment c rest H) as P. unfold quoted_comment in P.
  replace (escape c) with c in P; [exact P|]. symmetry. unfold escape. clear H P. induction c as [|x c IH]; [reflexivity|].
  cbn [flat_map]. destruct (Ascii.eqb_spec x quote) as [->|D]; [destruct N; now left|]. cbn [app]. f_equal. apply IH. intros I. apply N. now right.
Qed.
Example ex_plain : reads_back (quoted_text (txt "km/h")) (txt "km/h") (txt " Vector__XXX").
Proof. apply C47_plain_text.
  - cbn. intros H. repeat (destruct H as [H|H]; [discriminate H|]). exact H.
  - intros c'. rewrite <- (rev_involutive c'). destruct (rev c') as [|x r]; [discriminate|].
    intros E. apply (f_equal (@rev ascii)) in E. rewrite rev_app_distr in E. vm_compute in E. discriminate E. Qed.
(** ... and a unit, choice text or bus comment that holds a quote is not: the file no longer has the same tokens. *)
Theorem C47_unescaped_quote_refuted : exists c rest, tokenize rest <> None /\ ~ reads_back (quoted_text c) c rest.
Proof.
  exists (txt "5"" pipe"), (txt " Vector__XXX"). split.
  - intros E. vm_compute in E. discriminate E.
  - unfold reads_back. intros E. vm_compute in E. discriminate E.
Qed.
