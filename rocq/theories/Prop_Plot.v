(** C82: which signals the plot command collects, with which values, and where it draws them. *)
From Coq Require Import Ascii Permutation Sorted.
From Verif Require Import Base CSource CNames Regex DbcNames Logreader DecodeCmd Xml Arxml DictLemmas ListCmd ListRead Plot.
From Verif Require Prop_DbcNames.
Local Open Scope string_scope.
Local Open Scope Z_scope.
Local Open Scope list_scope.

Lemma cspec (a b : chars) : reflect (a = b) (chars_eqb a b).
Proof. unfold chars_eqb. destruct (list_eq_dec ascii_dec a b); now constructor. Qed.

(** ** Specification: names with wildcards *)
Definition same (fold : bool) (a b : ascii) : Prop := a = b \/ fold = true /\ to_lower a = to_lower b.
(** '*' stands for any characters, '?' for one *)
Inductive glob (fold : bool) : chars -> chars -> Prop :=
| gl_end : glob fold [] []
| gl_char c x p s : c <> "*"%char -> c <> "?"%char -> same fold c x -> glob fold p s -> glob fold (c :: p) (x :: s)
| gl_one x p s : glob fold p s -> glob fold ("?"%char :: p) (x :: s)
| gl_none p s : glob fold p s -> glob fold ("*"%char :: p) s
| gl_more x p s : glob fold ("*"%char :: p) s -> glob fold ("*"%char :: p) (x :: s).
(** An argument has a name and, after a colon, a format.  A name without a point is one of a signal of any message. *)
Definition name_part (arg s : chars) : Prop := (exists f, arg = s ++ ":"%char :: f /\ ~ In ":"%char s) \/ (arg = s /\ ~ In ":"%char s).
Definition meant (s p : chars) : Prop := In "."%char s /\ p = s \/ ~ In "."%char s /\ p = txt "*." ++ s.
Definition asks_for (fold : bool) (arg name : chars) : Prop := exists s p, name_part arg s /\ meant s p /\ glob fold p name.
Definition one_line (t : chars) : Prop := ~ In newline t.

(** ** The patterns *)
Definition token (c : ascii) : chars := if Ascii.eqb c "*" then txt ".*" else if Ascii.eqb c "?" then txt "." else if special c then [backslash; c] else [c].
Definition tok_item (c : ascii) : item := if Ascii.eqb c "*" then IMany else if Ascii.eqb c "?" then IAny else ILit c.
Lemma replace_S n old new c r : replace_n (S n) old new (c :: r) = match after old (c :: r) with Some r' => new ++ replace_n n old new r' | None => c :: replace_n n old new r end.
Proof. reflexivity. Qed.
Lemma replace_units {A} (g : A -> chars) w new l : forall n,
  (forall x, In x l -> (exists c, g x = [backslash; c]) \/ ~ In backslash (g x)) -> (forall x r, g x <> w :: r) -> w <> backslash -> (List.length (flat_map g l) <= n)%nat ->
  replace_n n [backslash; w] new (flat_map g l) = flat_map (fun x => if chars_eqb (g x) [backslash; w] then new else g x) l.
Proof.
  induction l as [|a l IH]; intros n U W NB L; [now destruct n|]. cbn [flat_map] in *. rewrite app_length in L. assert (IH' : forall k, (List.length (flat_map g l) <= k)%nat -> replace_n k [backslash; w] new (flat_map g l) = flat_map (fun x => if chars_eqb (g x) [backslash; w] then new else g x) l).
  { intros k K. apply IH; [intros; apply U; now right|exact W|exact NB|exact K]. }
  destruct (U a (or_introl eq_refl)) as [(c & E)|N].
  - rewrite E in *. cbn [List.app List.length] in *. destruct n as [|[|n]]; [lia|lia|]. rewrite replace_S. cbn [after]. rewrite Ascii.eqb_refl. destruct (cspec [backslash; c] [backslash; w]) as [Q|Q].
    + injection Q as ->. rewrite Ascii.eqb_refl. apply (f_equal (List.app new)). apply IH'. lia.
    + destruct (Ascii.eqb_spec w c) as [->|NE]; [contradiction|]. apply (f_equal (cons backslash)). rewrite replace_S.
      assert (X : after [backslash; w] (c :: flat_map g l) = None).
      { cbn [after]. destruct (Ascii.eqb backslash c); [|reflexivity]. assert (Y : forall r, flat_map g l <> w :: r). { clear - W. induction l as [|x l IH]; intros r; [discriminate|]. cbn [flat_map]. destruct (g x) as [|y z] eqn:G; [apply IH|]. cbn. intros Q1. injection Q1 as Q1 _. apply (W x z). rewrite G, Q1. reflexivity. }
        destruct (flat_map g l) as [|y z]; [reflexivity|]. destruct (Ascii.eqb_spec w y) as [->|]; [now destruct (Y z)|reflexivity]. }
      rewrite X. apply (f_equal (cons c)). apply IH'. lia.
  - assert (E : chars_eqb (g a) [backslash; w] = false) by (destruct (cspec (g a) [backslash; w]) as [Q|]; [rewrite Q in N; exfalso; apply N; now left|reflexivity]). rewrite E. clear E.
    assert (H : forall u k, ~ In backslash u -> (List.length u + List.length (flat_map g l) <= k)%nat -> replace_n k [backslash; w] new (u ++ flat_map g l) = u ++ replace_n (k - List.length u) [backslash; w] new (flat_map g l)).
    { clear. induction u as [|c u IH]; intros k N K; [cbn; now rewrite Nat.sub_0_r|]. cbn [List.length] in K. destruct k as [|k]; [lia|]. cbn [List.app replace_n after List.length]. destruct (Ascii.eqb_spec backslash c) as [E0|]; [subst c; exfalso; apply N; now left|].
      f_equal. rewrite IH; [reflexivity|intros X; apply N; now right|lia]. }
    rewrite H by (assumption || lia). f_equal. apply IH'. lia.
Qed.
Lemma contains_eq sub t : contains sub t = match after sub t with Some _ => true | None => match t with [] => false | _ :: r => contains sub r end end.
Proof. now destruct t. Qed.
Lemma contains_app sub a b : contains sub (a ++ sub ++ b) = true.
Proof. induction a as [|x a IH]; rewrite contains_eq; cbn [List.app]; [now rewrite after_app|]. rewrite IH. now destruct (after sub (x :: a ++ sub ++ b)). Qed.
Lemma special_cases c : special c = false -> c <> backslash /\ c <> "|"%char /\ c <> "$"%char /\ c <> "."%char /\ c <> "*"%char /\ c <> "?"%char.
Proof. intros H. repeat split; intros ->; discriminate. Qed.
Lemma contains_in w t : contains [backslash; w] t = true -> exists a b, t = a ++ backslash :: w :: b.
Proof.
  induction t as [|c t IH]; [discriminate|]. cbn [contains]. destruct (after [backslash; w] (c :: t)) as [r|] eqn:E; intros H.
  - cbn [after] in E. destruct (Ascii.eqb_spec backslash c) as [<-|]; [|discriminate]. destruct t as [|d t]; [discriminate|]. destruct (Ascii.eqb_spec w d) as [<-|]; [|discriminate]. now exists [], t.
  - destruct (IH H) as (a & b & ->). now exists (c :: a), b.
Qed.
Lemma escape_point s : contains sep_sg (escape s) = existsb (Ascii.eqb ".") s.
Proof.
  destruct (existsb (Ascii.eqb ".") s) eqn:E.
  - apply existsb_exists in E. destruct E as (x & I & X). apply Ascii.eqb_eq in X. subst x. apply in_split in I. destruct I as (a & b & ->). unfold escape. rewrite flat_map_app. cbn [flat_map]. change (special ".") with true. cbn iota. apply (contains_app sep_sg).
  - destruct (contains sep_sg (escape s)) eqn:C; [|reflexivity]. exfalso. apply contains_in in C. destruct C as (a & b & C). assert (I : In "."%char (escape s)) by (rewrite C; apply in_or_app; right; right; now left).
    unfold escape in I. apply in_flat_map in I. destruct I as (x & I & J). assert (X : x = "."%char). { destruct (special x); cbn in J; intuition discriminate || (intuition congruence). } subst x.
    assert (Y : existsb (Ascii.eqb ".") s = true) by (apply existsb_exists; exists "."%char; split; [exact I|apply Ascii.eqb_refl]). congruence.
Qed.
Definition esc1 (c : ascii) : chars := if special c then [backslash; c] else [c].
Lemma pattern_tokens s : pattern_of s = flat_map token (if existsb (Ascii.eqb ".") s then s else txt "*." ++ s) ++ txt "$".
Proof.
  unfold pattern_of. rewrite escape_point. set (p := if existsb (Ascii.eqb ".") s then s else txt "*." ++ s).
  assert (E : (if existsb (Ascii.eqb ".") s then escape s else wildcard_many ++ sep_sg ++ escape s) = flat_map esc1 p) by (unfold p; destruct (existsb (Ascii.eqb ".") s); reflexivity).
  rewrite E. clear E. f_equal. unfold replace.
  assert (G1 : forall x r, esc1 x <> "*"%char :: r) by (intros x r; unfold esc1; destruct (special x) eqn:S; [discriminate|]; intros [= -> _]; discriminate).
  assert (G2 : forall x, (exists c, esc1 x = [backslash; c]) \/ ~ In backslash (esc1 x)).
  { intros x. unfold esc1. destruct (special x) eqn:S; [left; now exists x|right]. intros [X|[]]. subst x. discriminate. }
  unfold wildcard_many. rewrite (replace_units esc1 "*"%char (txt ".*") p); [|intros; apply G2|exact G1|discriminate|reflexivity].
  unfold wildcard_one. set (g := fun x => if chars_eqb (esc1 x) [backslash; "*"%char] then txt ".*" else esc1 x).
  rewrite (replace_units g "?"%char (txt ".") p); [| | |discriminate|reflexivity].
  - apply flat_map_ext. intros c. unfold g, token, esc1. destruct (Ascii.eqb_spec c "*") as [->|N1]; [reflexivity|]. destruct (Ascii.eqb_spec c "?") as [->|N2]; [reflexivity|]. destruct (special c) eqn:S.
    + destruct (cspec [backslash; c] [backslash; "*"%char]) as [Q|_]; [congruence|]. destruct (cspec [backslash; c] [backslash; "?"%char]) as [Q|_]; [congruence|reflexivity].
    + destruct (cspec [c] [backslash; "*"%char]) as [Q|_]; [discriminate|]. destruct (cspec [c] [backslash; "?"%char]) as [Q|_]; [discriminate|reflexivity].
  - intros x _. unfold g. destruct (chars_eqb (esc1 x) [backslash; "*"%char]); [right; cbn; intuition discriminate|apply G2].
  - intros x r. unfold g. destruct (chars_eqb (esc1 x) [backslash; "*"%char]); [discriminate|]. unfold esc1. destruct (special x) eqn:S; [discriminate|]. intros [= -> _]. discriminate.
Qed.

(** ** What they match *)
Definition pushes (l : list item) (r : list (list item)) : list (list item) := match r with a :: r' => (l ++ a) :: r' | [] => [l] end.
Lemma items_some t : exists a r, items t = a :: r.
Proof.
  assert (P : forall i l, exists a r, push i l = a :: r) by (intros i [|]; cbn; eauto).
  destruct t as [|c t]; [now exists [], []|]. cbn [items]. destruct (Ascii.eqb c "|"); [eauto|]. destruct (Ascii.eqb c "$"); [apply P|]. destruct (Ascii.eqb c backslash); [destruct t; apply P|]. destruct (Ascii.eqb c "."); [destruct t as [|d t']; [apply P|destruct (Ascii.eqb d "*"); apply P]|apply P].
Qed.
Lemma items_token c r : (forall x, r <> "*"%char :: x) -> items (token c ++ r) = push (tok_item c) (items r).
Proof.
  intros N. unfold token, tok_item. destruct (Ascii.eqb_spec c "*") as [->|N1]; [reflexivity|]. destruct (Ascii.eqb_spec c "?") as [->|N2].
  - cbn [txt list_ascii_of_string List.app items]. change (Ascii.eqb "." "|") with false. change (Ascii.eqb "." "$") with false. change (Ascii.eqb "." backslash) with false. change (Ascii.eqb "." ".") with true. cbn iota. destruct r as [|d r']; [reflexivity|].
    destruct (Ascii.eqb_spec d "*") as [->|]; [now destruct (N r')|reflexivity].
  - destruct (special c) eqn:S; [reflexivity|]. apply special_cases in S. destruct S as (A & B & C & D & _). cbn [List.app items].
    destruct (Ascii.eqb_spec c "|"); [contradiction|]. destruct (Ascii.eqb_spec c "$"); [contradiction|]. destruct (Ascii.eqb_spec c backslash); [contradiction|]. destruct (Ascii.eqb_spec c "."); [contradiction|reflexivity].
Qed.
Lemma token_head c : exists x r, token c = x :: r /\ x <> "*"%char.
Proof.
  unfold token. destruct (Ascii.eqb_spec c "*"); [now exists "."%char, (txt "*")|]. destruct (Ascii.eqb_spec c "?"); [now exists "."%char, []|]. destruct (special c) eqn:S; [now exists backslash, [c]|]. exists c, []. now split.
Qed.
Lemma items_tokens p r : (forall x, r <> "*"%char :: x) -> items (flat_map token p ++ r) = pushes (map tok_item p) (items r).
Proof.
  intros N. destruct (items_some r) as (a & q & E). rewrite E. cbn [pushes]. induction p as [|c p IH]; [cbn [flat_map List.app map]; exact E|]. cbn [flat_map map]. rewrite <- app_assoc, items_token, IH; [reflexivity|].
  intros x. destruct p as [|d p]; [apply N|]. cbn [flat_map]. destruct (token_head d) as (y & z & -> & Y). cbn. congruence.
Qed.
Definition pat_items (s : chars) : list item := map tok_item (if existsb (Ascii.eqb ".") s then s else txt "*." ++ s) ++ [IEnd].
Lemma items_pattern s r : (r = [] \/ exists q, r = "|"%char :: q) -> items (pattern_of s ++ r) = match r with [] => [pat_items s] | _ :: q => pat_items s :: items q end.
Proof.
  intros R. rewrite pattern_tokens, <- app_assoc. rewrite items_tokens by (cbn; discriminate). destruct R as [->|(q & ->)]; cbn [txt list_ascii_of_string List.app items pushes]; reflexivity.
Qed.
Lemma same_iff fold a b : same_char fold a b = true <-> same fold a b.
Proof.
  unfold same_char, same. destruct fold.
  - rewrite Ascii.eqb_eq. split; [intros H; right; now split|]. intros [->|[_ H]]; [reflexivity|exact H].
  - rewrite Ascii.eqb_eq. split; [now left|]. intros [H|[H _]]; [exact H|discriminate].
Qed.
Lemma match_glob fold p : forall s, one_line s -> match_items fold (map tok_item p ++ [IEnd]) s = true <-> glob fold p s.
Proof.
  assert (T : forall x s, one_line (x :: s) -> Ascii.eqb x newline = false /\ one_line s). { intros x s O. split; [|intros I; apply O; now right]. destruct (Ascii.eqb_spec x newline) as [->|]; [exfalso; apply O; now left|reflexivity]. }
  induction p as [|c p IH]; intros s O.
  - cbn [map List.app match_items]. rewrite andb_true_r. destruct s as [|x s]; [split; [constructor|reflexivity]|]. destruct (T x s O) as [X _]. split; [destruct s; cbn [at_end]; [rewrite X; discriminate|discriminate]|intros G; inversion G].
  - cbn [map List.app]. unfold tok_item at 1. destruct (Ascii.eqb_spec c "*") as [->|N1]; [|destruct (Ascii.eqb_spec c "?") as [->|N2]].
    + cbn [match_items]. induction s as [|x s IHs].
      * rewrite orb_false_r, (IH [] O). split; [apply gl_none|]. intros G. inversion G; subst; try congruence; assumption.
      * destruct (T x s O) as [X O']. rewrite X. cbn [negb andb]. rewrite orb_true_iff, (IH (x :: s) O), (IHs O'). split.
        -- intros [G|G]; [now apply gl_none|now apply gl_more].
        -- intros G. inversion G; subst; try congruence; [now left|now right].
    + cbn [match_items]. destruct s as [|x s]; [split; [discriminate|intros G; inversion G]|]. destruct (T x s O) as [X O']. rewrite X. cbn [negb andb]. rewrite (IH s O'). split; [apply gl_one|]. intros G. inversion G; subst; try congruence; assumption.
    + cbn [match_items]. destruct s as [|x s]; [split; [discriminate|intros G; inversion G; subst; congruence]|]. destruct (T x s O) as [_ O']. rewrite andb_true_iff, same_iff, (IH s O'). split; [intros [A B]; now apply gl_char|]. intros G. inversion G; subst; congruence || now split.
Qed.
Lemma cut_name arg : (forall s f, cut_at ":" arg = Some (s, f) -> arg = s ++ ":"%char :: f /\ ~ In ":"%char s) /\ (cut_at ":" arg = None -> ~ In ":"%char arg).
Proof.
  induction arg as [|c arg [A B]]; [split; [discriminate|intros _ []]|]. cbn [cut_at]. destruct (Ascii.eqb_spec c ":") as [->|N].
  - split; [intros s f [= <- <-]; split; [reflexivity|intros []]|discriminate].
  - destruct (cut_at ":" arg) as [[a b]|].
    + split; [|discriminate]. intros s f [= <- <-]. destruct (A a b eq_refl) as [-> I]. split; [reflexivity|]. intros [X|X]; [congruence|contradiction].
    + split; [discriminate|]. intros _ [X|X]; [congruence|now apply B].
Qed.
Definition the_name (arg : chars) : chars := match cut_at ":" arg with Some (s, _) => s | None => arg end.
Lemma name_iff arg s : name_part arg s <-> s = the_name arg.
Proof.
  unfold the_name. destruct (cut_name arg) as [A B]. destruct (cut_at ":" arg) as [[a f]|].
  - destruct (A a f eq_refl) as [E I]. split; [|intros ->; left; now exists f]. intros [(f' & E' & I')|[E' I']].
    + rewrite E in E'. clear - E' I I'. revert s E' I'. induction a as [|c a IH]; intros [|d s] E' I'; cbn in E'; [reflexivity|injection E' as <- _; exfalso; apply I'; now left|injection E' as -> _; exfalso; apply I; now left|]. injection E' as -> E'. f_equal. apply IH; [intros X; apply I; now right|exact E'|intros X; apply I'; now right].
    + exfalso. apply I'. rewrite <- E', E. apply in_elt.
  - split; [|intros ->; right; split; [reflexivity|now apply B]]. intros [(f' & E' & I')|[E' I']]; [|now symmetry]. exfalso. apply (B eq_refl). rewrite E'. apply in_elt.
Qed.
Lemma target_pattern cs a b arg : t_pattern (add_signal cs a b arg) = pattern_of (the_name arg).
Proof. unfold add_signal, the_name. destruct (cut_at ":" arg) as [[s f]|]; [destruct (after (txt "|") f)|]; reflexivity. Qed.
Lemma target_fold cs a b arg : t_fold (add_signal cs a b arg) = negb cs.
Proof. unfold add_signal. destruct (cut_at ":" arg) as [[s f]|]; [destruct (after (txt "|") f)|]; reflexivity. Qed.
Lemma pattern_selects fold arg name : one_line name -> re_match fold (pattern_of (the_name arg)) name = true <-> asks_for fold arg name.
Proof.
  intros O. unfold re_match. rewrite <- (app_nil_r (pattern_of (the_name arg))), items_pattern by now left. cbn [existsb]. rewrite orb_false_r. unfold pat_items. rewrite match_glob by exact O. unfold asks_for. split.
  - intros G. exists (the_name arg). eexists. split; [now apply name_iff|]. split; [|exact G]. unfold meant. destruct (existsb (Ascii.eqb ".") (the_name arg)) eqn:E.
    + left. split; [|reflexivity]. apply existsb_exists in E. destruct E as (x & I & X). apply Ascii.eqb_eq in X. now subst x.
    + right. split; [|reflexivity]. intros I. assert (X : existsb (Ascii.eqb ".") (the_name arg) = true) by (apply existsb_exists; exists "."%char; now split). congruence.
  - intros (s & p & S & M & G). apply name_iff in S. subst s. destruct M as [[I ->]|[I ->]].
    + assert (X : existsb (Ascii.eqb ".") (the_name arg) = true) by (apply existsb_exists; exists "."%char; now split). now rewrite X.
    + destruct (existsb (Ascii.eqb ".") (the_name arg)) eqn:E; [|exact G]. exfalso. apply I. apply existsb_exists in E. destruct E as (x & J & X). apply Ascii.eqb_eq in X. now subst x.
Qed.
(** An argument selects the signals whose full name, message and signal with a point between them, fits it. *)
Theorem C82_selected cs subplot axis arg name : one_line name -> t_match (add_signal cs subplot axis arg) name = true <-> asks_for (negb cs) arg name.
Proof. intros O. unfold t_match. rewrite target_pattern, target_fold. now apply pattern_selects. Qed.

(** ** Where they are placed *)
Definition is_sep (a : chars) : bool := chars_eqb a (txt "-") || chars_eqb a (txt ",").
(** A "-" begins a new subplot, a "," a new axis in it. *)
Definition subplot_of (before : list chars) : Z := 1 + Z.of_nat (count (txt "-") before).
Fixpoint since_dash (before : list chars) : list chars :=
  match before with [] => [] | a :: r => if chars_in (txt "-") r then since_dash r else if chars_eqb a (txt "-") then r else before end.
Definition axis_of (before : list chars) : Z := Z.of_nat (count (txt ",") (since_dash before)).
(** The arguments that are no separators, with what is before them *)
Fixpoint arguments (before l : list chars) : list (list chars * chars) :=
  match l with
  | [] => []
  | a :: r => if is_sep a then arguments (before ++ [a]) r else (before, a) :: arguments (before ++ [a]) r
  end.
Fixpoint first_sep (l : list chars) : option nat := match l with [] => None | a :: r => if is_sep a then Some O else option_map S (first_sep r) end.
Lemma eqb_same (a : chars) : chars_eqb a a = true.
Proof. destruct (cspec a a); [reflexivity|contradiction]. Qed.
Lemma first_eq l : match index_of (txt "-") l, index_of (txt ",") l with None, b => b | Some a, Some b => if Nat.ltb b a then Some b else Some a | Some a, None => Some a end = first_sep l.
Proof.
  induction l as [|x l IH]; [reflexivity|]. cbn [index_of first_sep]. unfold is_sep. destruct (cspec x (txt "-")) as [->|N1]; cbn [orb].
  { destruct (chars_eqb (txt "-") (txt ",")); [|destruct (index_of (txt ",") l)]; reflexivity. }
  destruct (cspec x (txt ",")) as [->|N2].
  - now destruct (index_of (txt "-") l).
  - rewrite <- IH. destruct (index_of (txt "-") l) as [a|], (index_of (txt ",") l) as [b|]; cbn [option_map]; try reflexivity. change (Nat.ltb (S b) (S a)) with (Nat.ltb b a). now destruct (Nat.ltb b a).
Qed.
Definition step (p : Z * Z) (a : chars) : Z * Z := if chars_eqb a (txt "-") then (fst p + 1, 0) else if chars_eqb a (txt ",") then (fst p, snd p + 1) else p.
Fixpoint placed (cs : bool) (p : Z * Z) (l : list chars) : list target :=
  match l with [] => [] | a :: r => if is_sep a then placed cs (step p a) r else add_signal cs (fst p) (snd p) a :: placed cs p r end.
Lemma first_none l : first_sep l = None -> forall cs p, placed cs p l = map (add_signal cs (fst p) (snd p)) l /\ fold_left step l p = p.
Proof.
  induction l as [|a l IH]; [now split|]. cbn [first_sep]. destruct (is_sep a) eqn:S; [discriminate|]. destruct (first_sep l); [discriminate|]. intros _ cs p. cbn [placed map fold_left]. rewrite S. destruct (IH eq_refl cs p) as [E F]. rewrite E. split; [reflexivity|].
  unfold step at 2. unfold is_sep in S. apply orb_false_elim in S. destruct S as [-> ->]. exact F.
Qed.
Lemma first_some l n : first_sep l = Some n -> is_sep (nth n l []) = true /\ (n < List.length l)%nat /\
  forall cs p, placed cs p l = map (add_signal cs (fst p) (snd p)) (firstn n l) ++ placed cs (step p (nth n l [])) (skipn (S n) l) /\ fold_left step l p = fold_left step (skipn (S n) l) (step p (nth n l [])).
Proof.
  revert n. induction l as [|a l IH]; [discriminate|]. intros n. cbn [first_sep]. destruct (is_sep a) eqn:S.
  - intros [= <-]. cbn [nth List.length]. split; [exact S|]. split; [lia|]. intros cs p. cbn [placed firstn map List.app skipn fold_left]. rewrite S. now split.
  - destruct (first_sep l) as [k|]; [|discriminate]. intros [= <-]. destruct (IH k eq_refl) as (A & B & C). split; [exact A|]. split; [cbn; lia|]. intros cs p. destruct (C cs p) as [D E]. cbn [placed nth]. rewrite S, D. split; [reflexivity|].
    cbn [fold_left]. unfold step at 2. unfold is_sep in S. apply orb_false_elim in S. destruct S as [-> ->]. exact E.
Qed.
Lemma place_eq cs fuel : forall l a b, (List.length l <= fuel)%nat -> place fuel cs a b l = (placed cs (a, b) l, fold_left step l (a, b)).
Proof.
  assert (X : forall l, match index_of (txt "-") l with None => index_of (txt ",") l | Some a => match index_of (txt ",") l with Some b => if Nat.ltb b a then index_of (txt ",") l else index_of (txt "-") l | None => index_of (txt "-") l end end = first_sep l).
  { intros l. rewrite <- first_eq. destruct (index_of (txt "-") l) as [u|], (index_of (txt ",") l) as [v|]; reflexivity. }
  induction fuel as [|fuel IH]; intros l a b L; cbn [place]; rewrite X; destruct (first_sep l) as [n|] eqn:F.
  - destruct (first_some l n F) as (_ & Y & _). lia.
  - destruct (first_none l F cs (a, b)) as [E G]. now rewrite E, G.
  - destruct (first_some l n F) as (S & Y & Z). destruct (Z cs (a, b)) as [E G]. rewrite E, G.
    assert (W : (if chars_eqb (nth n l []) (txt "-") then (a + 1, 0) else (a, b + 1)) = step (a, b) (nth n l [])).
    { unfold step. cbn [fst snd]. unfold is_sep in S. destruct (chars_eqb (nth n l []) (txt "-")); [reflexivity|]. cbn [orb] in S. now rewrite S. }
    rewrite W. rewrite IH by (rewrite skipn_length; lia). destruct (step (a, b) (nth n l [])) as [u v]. reflexivity.
  - destruct (first_none l F cs (a, b)) as [E G]. now rewrite E, G.
Qed.
Lemma count_app x a b : count x (a ++ b) = (count x a + count x b)%nat.
Proof. unfold count. now rewrite filter_app, app_length. Qed.
Lemma in_app_b x a b : chars_in x (a ++ b) = chars_in x a || chars_in x b.
Proof. unfold chars_in. apply existsb_app. Qed.
Lemma since_snoc l a : since_dash (l ++ [a]) = if chars_eqb a (txt "-") then [] else since_dash l ++ [a].
Proof.
  induction l as [|x l IH].
  - cbn [List.app since_dash chars_in existsb]. now destruct (chars_eqb a (txt "-")).
  - cbn [List.app since_dash]. rewrite in_app_b. change (chars_in (txt "-") [a]) with (chars_eqb (txt "-") a || false). rewrite orb_false_r. rewrite IH. destruct (cspec (txt "-") a) as [<-|N].
    + rewrite orb_true_r. rewrite eqb_same. reflexivity.
    + rewrite orb_false_r. destruct (cspec a (txt "-")) as [E|_]; [congruence|]. destruct (chars_in (txt "-") l); [reflexivity|]. now destruct (chars_eqb x (txt "-")).
Qed.
Lemma step_of before a : step (subplot_of before, axis_of before) a = (subplot_of (before ++ [a]), axis_of (before ++ [a])).
Proof.
  unfold step, subplot_of, axis_of. cbn [fst snd]. rewrite since_snoc, count_app. change (count (txt "-") [a]) with (List.length (if chars_eqb (txt "-") a then [a] else [])).
  destruct (cspec a (txt "-")) as [->|N]; [rewrite eqb_same; cbn [List.length]; apply f_equal2; [lia|reflexivity]|]. destruct (cspec (txt "-") a) as [E|_]; [congruence|]. cbn [List.length]. rewrite count_app. change (count (txt ",") [a]) with (List.length (if chars_eqb (txt ",") a then [a] else [])).
  destruct (cspec a (txt ",")) as [->|N2]; [rewrite eqb_same; cbn [List.length]; apply f_equal2; lia|]. destruct (cspec (txt ",") a) as [E|_]; [congruence|]. cbn [List.length]. now rewrite !Nat.add_0_r.
Qed.
Lemma placed_eq cs l : forall before, placed cs (subplot_of before, axis_of before) l = map (fun x => add_signal cs (subplot_of (fst x)) (axis_of (fst x)) (snd x)) (arguments before l) /\
  fold_left step l (subplot_of before, axis_of before) = (subplot_of (before ++ l), axis_of (before ++ l)).
Proof.
  induction l as [|a l IH]; intros before; [now rewrite app_nil_r|]. cbn [placed arguments fold_left]. rewrite step_of. destruct (IH (before ++ [a])) as [E F]. rewrite <- app_assoc in F. cbn [List.app] in F. split; [|exact F].
  destruct (is_sep a) eqn:S; [exact E|]. cbn [map fst snd]. rewrite <- E. assert (X : (subplot_of (before ++ [a]), axis_of (before ++ [a])) = (subplot_of before, axis_of before)); [|now rewrite X].
  rewrite <- step_of. unfold step. unfold is_sep in S. apply orb_false_elim in S. now destruct S as [-> ->].
Qed.
(** Each argument goes to the subplot and axis that the separators before it give; without any, everything is plotted on the last. *)
Theorem C82_places cs signals :
  (arguments [] signals <> [] -> targets cs signals = map (fun x => add_signal cs (subplot_of (fst x)) (axis_of (fst x)) (snd x)) (arguments [] signals)) /\
  (arguments [] signals = [] -> targets cs signals = [add_signal cs (subplot_of signals) (axis_of signals) (txt "*")]).
Proof.
  unfold targets. rewrite place_eq by reflexivity. destruct (placed_eq cs signals []) as [E F]. change (subplot_of [], axis_of []) with (1, 0) in E, F. rewrite E, F. cbn [List.app fst snd]. destruct (arguments [] signals) as [|x l]; [split; [contradiction|reflexivity]|]. split; [reflexivity|discriminate].
Qed.
(** What is asked for: the arguments or, without any, '*' *)
Definition asked (signals : list chars) : list chars := match map snd (arguments [] signals) with [] => [txt "*"] | l => l end.
Lemma targets_patterns cs signals : map t_pattern (targets cs signals) = map (fun a => pattern_of (the_name a)) (asked signals) /\ Forall (fun t => t_fold t = negb cs) (targets cs signals).
Proof.
  destruct (C82_places cs signals) as [A B]. unfold asked. destruct (arguments [] signals) as [|x l] eqn:E.
  - rewrite (B eq_refl). split; [cbn [map]; now rewrite target_pattern|]. constructor; [apply target_fold|constructor].
  - rewrite A by discriminate. split; [|apply Forall_map, Forall_forall; intros; apply target_fold]. rewrite map_map. cbn [map]. rewrite target_pattern. f_equal. rewrite map_map. apply map_ext. intros y. apply target_pattern.
Qed.
Lemma asked_some signals : asked signals <> [].
Proof. unfold asked. destruct (map snd (arguments [] signals)); discriminate. Qed.
Lemma items_joined l : l <> [] -> items (join_bar (map pattern_of l)) = map pat_items l.
Proof.
  induction l as [|a l IH]; [contradiction|]. intros _. destruct l as [|b l].
  - cbn [map join_bar]. rewrite <- (app_nil_r (pattern_of a)), items_pattern by now left. reflexivity.
  - change (join_bar (map pattern_of (a :: b :: l))) with (pattern_of a ++ "|"%char :: join_bar (map pattern_of (b :: l))). rewrite items_pattern by (right; eauto). rewrite IH by discriminate. reflexivity.
Qed.
(** The signals whose values are collected are those that an argument selects if upper and lower case are not distinguished. *)
Theorem C82_collected cs signals name : one_line name -> displayed (targets cs signals) name = true <-> exists arg, In arg (asked signals) /\ asks_for true arg name.
Proof.
  intros O. unfold displayed. destruct (targets_patterns cs signals) as [-> _]. rewrite <- (map_map the_name pattern_of). unfold re_match. rewrite items_joined; [|destruct (asked signals) eqn:E; [now apply asked_some in E|discriminate]].
  rewrite map_map, existsb_exists. split.
  - intros (i & I & M). apply in_map_iff in I. destruct I as (arg & <- & I). exists arg. split; [exact I|]. apply pattern_selects; [exact O|]. unfold re_match. rewrite <- (app_nil_r (pattern_of _)), items_pattern by now left. cbn [existsb]. now rewrite M.
  - intros (arg & I & A). exists (pat_items (the_name arg)). split; [apply in_map_iff; now exists arg|]. apply (pattern_selects true arg name O) in A. unfold re_match in A. rewrite <- (app_nil_r (pattern_of _)), items_pattern in A by now left. cbn [existsb] in A. now rewrite orb_false_r in A.
Qed.

(** ** The values *)
Section Values.
  Context {X Y M : Type} (breaks : bool) (far : X -> X -> bool) (middle : X -> X).
  Context (lookup : Z -> option M) (name_of : M -> chars) (decode : M -> list Z -> result (list (chars * Y))).
  (** Specification: the values of a signal in the frames, in the order of the frames *)
  Definition values_in (name : chars) (frame : X * Z * list Z) : list (X * Y) :=
    let '(x, id, data) := frame in
    match lookup id with
    | Some m => match decode m data with Ok d => map (fun s => (x, snd s)) (filter (fun s => chars_eqb (name_of m ++ "."%char :: fst s) name) d) | Err _ => [] end
    | None => []
    end.
  Definition values_of (name : chars) (frames : list (X * Z * list Z)) : list (X * Y) := flat_map (values_in name) frames.
  (** A line through these values is interrupted exactly where two neighbours are too far from each other. *)
  Inductive broken : list (X * Y) -> graph (X := X) (Y := Y) -> Prop :=
  | br_one x y : broken [(x, y)] [(x, Some y)]
  | br_near x y x' y' l g : breaks && far x x' = false -> broken ((x', y') :: l) g -> broken ((x, y) :: (x', y') :: l) ((x, Some y) :: g)
  | br_far x y x' y' l g : breaks = true -> far x x' = true -> broken ((x', y') :: l) g -> broken ((x, y) :: (x', y') :: l) ((x, Some y) :: (middle x, None) :: g).
  Definition unknown (frame : X * Z * list Z) : bool := match lookup (snd (fst frame)) with None => true | Some _ => false end.
  Definition invalid (frame : X * Z * list Z) : bool := match lookup (snd (fst frame)) with Some m => match decode m (snd frame) with Err _ => true | Ok _ => false end | None => false end.

  Definition gap (x x' : X) : list (X * option Y) := if breaks && far x x' then [(middle x, None)] else [].
  Fixpoint line (l : list (X * Y)) : graph :=
    match l with [] => [] | (x, y) :: r => (x, Some y) :: match r with [] => [] | (x', _) :: _ => gap x x' ++ line r end end.
  Lemma line_broken l : l <> [] -> broken l (line l).
  Proof.
    induction l as [|[x y] [|[x' y'] r] IH]; [contradiction|constructor|]. intros _. change (line ((x, y) :: (x', y') :: r)) with ((x, Some y) :: gap x x' ++ line ((x', y') :: r)). unfold gap. destruct (breaks && far x x') eqn:E; cbn [List.app].
    - apply andb_prop in E. destruct E. apply br_far; [assumption|assumption|]. apply IH. discriminate.
    - apply br_near; [exact E|]. apply IH. discriminate.
  Qed.
  Lemma broken_line l g : broken l g -> g = line l.
  Proof.
    induction 1 as [x y|x y x' y' l g E _ ->|x y x' y' l g A B _ ->]; [reflexivity| |]; change (line ((x, y) :: (x', y') :: l)) with ((x, Some y) :: gap x x' ++ line ((x', y') :: l)); unfold gap.
    - now rewrite E.
    - now rewrite A, B.
  Qed.
  Lemma line_snoc l a b x y : line (l ++ [(a, b); (x, y)]) = line (l ++ [(a, b)]) ++ gap a x ++ [(x, Some y)].
  Proof.
    induction l as [|[u v] [|[u' v'] r] IH]; cbn [List.app] in *; [reflexivity| |].
    - cbn [line List.app]. rewrite <- app_assoc. reflexivity.
    - change (line ((u, v) :: (u', v') :: r ++ [(a, b); (x, y)])) with ((u, Some v) :: gap u u' ++ line ((u', v') :: r ++ [(a, b); (x, y)])). rewrite IH.
      change (line ((u, v) :: (u', v') :: r ++ [(a, b)])) with ((u, Some v) :: gap u u' ++ line ((u', v') :: r ++ [(a, b)])). cbn [List.app]. now rewrite <- app_assoc.
  Qed.
  Lemma line_last l a b : exists g, line (l ++ [(a, b)]) = g ++ [(a, Some b)].
  Proof.
    induction l as [|[u v] [|[u' v'] r] IH]; cbn [List.app] in *; [now exists []| |].
    - exists ((u, Some v) :: gap u a). reflexivity.
    - destruct IH as (g & E). change (line ((u, v) :: (u', v') :: r ++ [(a, b)])) with ((u, Some v) :: gap u u' ++ line ((u', v') :: r ++ [(a, b)])). rewrite E. exists ((u, Some v) :: gap u u' ++ g). cbn [List.app]. now rewrite <- app_assoc.
  Qed.
  (** The dictionary after some samples *)
  Definition holds (l : list target) (samples : list (chars * (X * Y))) (v : list (chars * graph)) : Prop :=
    NoDup (map fst v) /\ forall n, dget chars_eqb v n = if displayed l n then match map snd (filter (fun s => chars_eqb (fst s) n) samples) with [] => None | o => Some (line o) end else None.
  Lemma holds_add l samples v n x y : holds l samples v -> holds l (samples ++ [(n, (x, y))]) (add_value breaks far middle l v n x y).
  Proof.
    intros [ND H]. unfold add_value. pose proof (H n) as Hn. destruct (displayed l n) eqn:D.
    - assert (K : forall w, NoDup (map fst (dset chars_eqb v n w))) by (intros w; now apply (set_nodup chars_eqb cspec)).
      destruct (dget chars_eqb v n) as [g|] eqn:G.
      + split; [apply K|]. intros k. rewrite (get_set chars_eqb cspec). rewrite filter_app, map_app. cbn [filter fst]. destruct (cspec n k) as [<-|N].
        * rewrite D. cbn [map snd]. destruct (map snd (filter (fun s => chars_eqb (fst s) n) samples)) as [|p o] eqn:O; [discriminate|]. assert (Hg : g = line (p :: o)) by (apply (f_equal (fun z => match z with Some w => w | None => g end)) in Hn; exact Hn). rewrite Hg. clear Hg Hn.
          assert (F : forall q, q <> [] -> match q with [] => None | a :: r => Some (line (a :: r)) end = Some (line q)) by (intros [|]; [contradiction|reflexivity]). etransitivity; [|symmetry; apply F; discriminate].
          destruct (exists_last (l := p :: o)) as (o' & [a b] & E); [discriminate|]. rewrite E. rewrite <- app_assoc. cbn [List.app]. rewrite line_snoc. destruct (line_last o' a b) as (g' & Q). rewrite Q, rev_app_distr. cbn [rev List.app]. reflexivity.
        * cbn [map List.app]. rewrite app_nil_r. apply H.
      + split; [apply K|]. intros k. rewrite (get_set chars_eqb cspec). rewrite filter_app, map_app. cbn [filter fst]. destruct (cspec n k) as [<-|N].
        * rewrite D. cbn [map snd]. destruct (map snd (filter (fun s => chars_eqb (fst s) n) samples)) as [|p o] eqn:O; [reflexivity|discriminate].
        * cbn [map List.app]. rewrite app_nil_r. apply H.
    - split; [exact ND|]. intros k. rewrite H. rewrite filter_app, map_app. cbn [filter fst]. destruct (cspec n k) as [<-|N]; [now rewrite D|]. cbn [map]. now rewrite app_nil_r.
  Qed.
  Definition samples_in (frame : X * Z * list Z) : list (chars * (X * Y)) :=
    let '(x, id, data) := frame in
    match lookup id with Some m => match decode m data with Ok d => map (fun s => (name_of m ++ txt "." ++ fst s, (x, snd s))) d | Err _ => [] end | None => [] end.
  Lemma values_samples n frames : values_of n frames = map snd (filter (fun s => chars_eqb (fst s) n) (flat_map samples_in frames)).
  Proof.
    induction frames as [|[[x id] data] frames IH]; [reflexivity|]. cbn [values_of flat_map]. rewrite filter_app, map_app, <- IH. f_equal. unfold values_in, samples_in. destruct (lookup id) as [m|]; [|reflexivity]. destruct (decode m data) as [d|]; [|reflexivity].
    induction d as [|s d IHd]; [reflexivity|]. cbn [map filter fst]. change (name_of m ++ txt "." ++ fst s) with (name_of m ++ "."%char :: fst s). match goal with |- map _ (if ?b then _ else _) = map _ (if ?c then _ else _) => change c with b; destruct b end; [apply (f_equal (cons (x, snd s))); exact IHd|exact IHd].
  Qed.
  Lemma holds_all o l frames : holds l (flat_map samples_in frames) (p_values (add_msgs breaks far middle lookup name_of decode o l frames)).
  Proof.
    unfold add_msgs. induction frames as [|[[x id] data] frames IH] using rev_ind.
    - split; [constructor|]. intros n. cbn. now destruct (displayed l n).
    - rewrite flat_map_app, fold_left_app. cbn [flat_map fold_left]. rewrite app_nil_r. set (p := fold_left _ frames start) in *. clearbody p. unfold add_msg, samples_in at 2. destruct (lookup id) as [m|]; [|cbn [p_values]; now rewrite app_nil_r]. destruct (decode m data) as [d|]; [|cbn [p_values]; now rewrite app_nil_r].
      cbn [p_values]. revert IH. generalize (p_values p) (flat_map samples_in frames). clear p. induction d as [|s d IHd]; intros v q Q; [now rewrite app_nil_r|]. cbn [fold_left map]. change ((name_of m ++ txt "." ++ fst s, (x, snd s)) :: ?r) with ([(name_of m ++ txt "." ++ fst s, (x, snd s))] ++ r).
      rewrite app_assoc. apply IHd. now apply holds_add.
  Qed.
  (** The values of the signals that are asked for are collected, all of them and in order, and the lines are interrupted where the log is. *)
  Theorem C82_graphs o l frames (p := add_msgs breaks far middle lookup name_of decode o l frames) :
    NoDup (map fst (p_values p)) /\
    forall name g, In (name, g) (p_values p) <-> displayed l name = true /\ values_of name frames <> [] /\ broken (values_of name frames) g.
  Proof.
    destruct (holds_all o l frames) as [ND H]. fold p in ND, H. split; [exact ND|]. intros name g. assert (Q : In (name, g) (p_values p) <-> dget chars_eqb (p_values p) name = Some g) by (split; [now apply (in_get chars_eqb cspec)|apply (get_in chars_eqb cspec)]).
    rewrite Q, H, <- values_samples. destruct (displayed l name); [|split; [discriminate|intros [? _]; discriminate]]. destruct (values_of name frames) as [|q r] eqn:V.
    - split; [discriminate|intros (_ & N & _); contradiction].
    - split; [intros [= <-]; split; [reflexivity|split; [discriminate|apply line_broken; discriminate]]|]. intros (_ & _ & B). apply broken_line in B. now rewrite B.
  Qed.
  (** Frames that cannot be decoded are marked if that is wanted and reported unless that is not wanted. *)
  Theorem C82_marks o l frames (p := add_msgs breaks far middle lookup name_of decode o l frames) :
    p_unknown p = (if show_unknown o then map (fun f => fst (fst f)) (filter unknown frames) else []) /\
    p_invalid p = (if show_invalid o then map (fun f => fst (fst f)) (filter invalid frames) else []) /\
    p_said p = flat_map (fun f => if unknown f then if ignore_unknown o then [] else [SaidUnknown (snd (fst f))]
                                  else if invalid f then if ignore_invalid o then [] else [SaidInvalid (snd (fst f))] else []) frames.
  Proof.
    subst p. unfold add_msgs. induction frames as [|[[x id] data] frames (A & B & C)] using rev_ind.
    - cbn. now destruct (show_unknown o), (show_invalid o).
    - rewrite fold_left_app, !filter_app, !map_app, flat_map_app. cbn [fold_left filter flat_map]. set (p := fold_left _ frames start) in *. unfold add_msg, unknown at 2 4, invalid at 2 4. cbn [fst snd]. destruct (lookup id) as [m|]; [destruct (decode m data) as [d|e]|]; cbn [p_unknown p_invalid p_said map fst snd]; rewrite ?A, ?B, ?C, ?app_nil_r.
      + now split.
      + split; [reflexivity|]. split; [now destruct (show_invalid o)|]. destruct (ignore_invalid o); [now rewrite app_nil_r|reflexivity].
      + split; [now destruct (show_unknown o)|]. split; [reflexivity|]. destruct (ignore_unknown o); [now rewrite app_nil_r|reflexivity].
  Qed.
End Values.

(** ** Drawing *)
Section Drawing.
  Context {X Y : Type}.
  Notation graphs := (list (chars * graph (X := X) (Y := Y))).
  Definition chosen (t : target) (drawn : list (chars * target)) (n : chars) : bool := t_match t n && match dget chars_eqb drawn n with Some p => replot t p | None => true end.
  Definition graph_of (values : graphs) (n : chars) : graph := match dget chars_eqb values n with Some g => g | None => [] end.
  Lemma names_drawn t values names : NoDup names -> forall drawn,
    fst (draw_names t drawn values names) = map (fun n => mkCall t n (graph_of values n)) (filter (chosen t drawn) names) /\
    forall n, dget chars_eqb (snd (draw_names t drawn values names)) n = match dget chars_eqb drawn n with Some p => Some p | None => if t_match t n && chars_in n names then Some t else None end.
  Proof.
    induction 1 as [|a names NI ND IH]; intros drawn.
    - split; [reflexivity|]. intros n. cbn [draw_names snd chars_in existsb]. rewrite andb_false_r. now destruct (dget chars_eqb drawn n).
    - cbn [draw_names filter]. unfold chosen at 1. fold (graph_of values a). assert (CI : forall n, chars_in n (a :: names) = chars_eqb n a || chars_in n names) by reflexivity. destruct (t_match t a) eqn:T; cbn [andb].
      + destruct (dget chars_eqb drawn a) as [p|] eqn:D.
        * destruct (IH drawn) as [A B]. destruct (draw_names t drawn values names) as [c d] eqn:W. cbn [fst snd] in *. split; [rewrite A; now destruct (replot t p)|].
          intros n. rewrite B, CI. destruct (cspec n a) as [->|N]; [now rewrite D|reflexivity].
        * destruct (IH (dset chars_eqb drawn a t)) as [A B]. destruct (draw_names t (dset chars_eqb drawn a t) values names) as [c d] eqn:W. cbn [fst snd] in *. split.
          -- rewrite A. cbn [map]. f_equal. f_equal. apply filter_ext_in. intros n I. unfold chosen. rewrite (get_set chars_eqb cspec). destruct (cspec a n) as [->|_]; [contradiction|reflexivity].
          -- intros n. rewrite B, CI, (get_set chars_eqb cspec). destruct (cspec a n) as [<-|N]; [rewrite D, eqb_same, T; reflexivity|]. destruct (cspec n a) as [E|_]; [congruence|reflexivity].
      + destruct (IH drawn) as [A B]. split; [exact A|]. intros n. rewrite B, CI. destruct (cspec n a) as [->|N]; [|reflexivity]. now rewrite T.
  Qed.
  Definition chosen_after (before : list target) (t : target) (n : chars) : bool := t_match t n && match find (fun u => t_match u n) before with Some p => replot t p | None => true end.
  Lemma find_app {A} (f : A -> bool) a b : find f (a ++ b) = match find f a with Some x => Some x | None => find f b end.
  Proof. induction a as [|x a IH]; [reflexivity|]. cbn [List.app find]. now destruct (f x). Qed.
  Lemma targets_drawn values names : NoDup names -> forall l before drawn, (forall n, In n names -> dget chars_eqb drawn n = find (fun u => t_match u n) before) ->
    forall i, nth_error (draw_targets l drawn values names) i = match nth_error l i with Some t => Some (t, map (fun n => mkCall t n (graph_of values n)) (filter (chosen_after (before ++ firstn i l) t) names)) | None => None end.
  Proof.
    intros ND. induction l as [|t l IH]; intros before drawn H i; [now destruct i|]. cbn [draw_targets]. destruct (names_drawn t values names ND drawn) as [A B]. destruct (draw_names t drawn values names) as [c d] eqn:W. cbn [fst snd] in *. destruct i as [|i]; cbn [nth_error firstn].
    - rewrite A, app_nil_r. do 3 f_equal. apply filter_ext_in. intros n I. unfold chosen, chosen_after. now rewrite H.
    - rewrite (IH (before ++ [t])).
      + rewrite <- app_assoc. reflexivity.
      + intros n I. rewrite B, H, find_app by exact I. destruct (find (fun u => t_match u n) before); [reflexivity|]. cbn [find]. assert (J : chars_in n names = true) by (apply existsb_exists; exists n; split; [exact I|apply eqb_same]). rewrite J, andb_true_r. now destruct (t_match t n).
  Qed.
  (** Two arguments with the same name after completion *)
  Definition same_meaning (a b : chars) : Prop := exists s s' p, name_part a s /\ name_part b s' /\ meant s p /\ meant s' p.
  (** A signal is drawn for an argument if it is the first one that asks for it, or if the first one has the same name. *)
  Definition drawn_for (fold : bool) (before : list chars) (arg name : chars) : Prop :=
    asks_for fold arg name /\
    ((forall a, In a before -> ~ asks_for fold a name) \/
     (exists u a v, before = u ++ a :: v /\ asks_for fold a name /\ (forall b, In b u -> ~ asks_for fold b name) /\ same_meaning arg a)).
  Lemma tok_inj a b : tok_item a = tok_item b -> a = b.
  Proof. unfold tok_item. destruct (Ascii.eqb_spec a "*") as [->|], (Ascii.eqb_spec b "*") as [->|]; try discriminate; [reflexivity|destruct (Ascii.eqb_spec b "?"); discriminate|destruct (Ascii.eqb_spec a "?"); discriminate|]. destruct (Ascii.eqb_spec a "?") as [->|], (Ascii.eqb_spec b "?") as [->|]; try discriminate; [reflexivity|]. now intros [= ->]. Qed.
  Definition full (s : chars) : chars := if existsb (Ascii.eqb ".") s then s else txt "*." ++ s.
  Lemma pattern_full s : pattern_of s = flat_map token (full s) ++ txt "$".
  Proof. exact (pattern_tokens s). Qed.
  Lemma full_meant s p : meant s p <-> p = full s.
  Proof.
    unfold meant, full. assert (Q : existsb (Ascii.eqb ".") s = true <-> In "."%char s).
    { rewrite existsb_exists. split; [intros (x & I & E); apply Ascii.eqb_eq in E; now subst x|intros I; exists "."%char; now split]. }
    destruct (existsb (Ascii.eqb ".") s).
    - assert (I : In "."%char s) by now apply Q. split; [intros [[_ E]|[N _]]; [exact E|contradiction]|intros ->; left; now split].
    - assert (I : ~ In "."%char s) by (intros I; apply Q in I; discriminate). split; [intros [[J _]|[_ E]]; [contradiction|exact E]|intros ->; right; now split].
  Qed.
  Lemma pattern_same a b : pattern_of (the_name a) = pattern_of (the_name b) <-> same_meaning a b.
  Proof.
    assert (P : forall s, items (pattern_of s) = [map tok_item (full s) ++ [IEnd]]). { intros s. rewrite <- (app_nil_r (pattern_of s)), items_pattern by now left. reflexivity. }
    unfold same_meaning. split.
    - intros E. exists (the_name a), (the_name b), (full (the_name a)). split; [now apply name_iff|]. split; [now apply name_iff|]. split; [now apply full_meant|]. apply full_meant.
      apply (f_equal items) in E. rewrite !P in E. injection E as E. apply app_inj_tail in E. destruct E as [E _]. revert E. generalize (full (the_name a)) (full (the_name b)). clear. induction c as [|x c IH]; intros [|y d] E; try discriminate; [reflexivity|]. cbn [map] in E. injection E as E1 E2. apply tok_inj in E1. subst y. f_equal. now apply IH.
    - intros (s & s' & p & A & B & C & D). apply name_iff in A, B. subst s s'. apply full_meant in C, D. rewrite !pattern_full. congruence.
  Qed.
  Lemma pattern_point s : existsb (Ascii.eqb ".") (pattern_of s) = true.
  Proof.
    rewrite pattern_full, existsb_app. apply orb_true_intro. left. apply existsb_exists. exists "."%char. split; [|reflexivity].
    assert (I : In "."%char (full s)). { unfold full. destruct (existsb (Ascii.eqb ".") s) eqn:E; [|right; now left]. apply existsb_exists in E. destruct E as (x & I & E). apply Ascii.eqb_eq in E. now subst x. }
    apply in_flat_map. exists "."%char. split; [exact I|]. right. now left.
  Qed.
  Lemma chosen_iff cs (n : chars) : one_line n -> forall before args, Forall2 (fun u a => t_pattern u = pattern_of (the_name a) /\ t_fold u = negb cs) before args ->
    forall t arg, t_pattern t = pattern_of (the_name arg) -> t_fold t = negb cs -> chosen_after before t n = true <-> drawn_for (negb cs) args arg n.
  Proof.
    intros O before args F t arg TP TF. assert (TM : forall u a, t_pattern u = pattern_of (the_name a) -> t_fold u = negb cs -> t_match u n = true <-> asks_for (negb cs) a n) by (intros u a A B; unfold t_match; rewrite A, B; now apply pattern_selects).
    unfold chosen_after, drawn_for. rewrite andb_true_iff, (TM t arg TP TF). apply and_iff_compat_l. clear O.
    induction F as [|u a before args [UP UF] F IH]; [split; [intros _; left; intros a []|reflexivity]|]. cbn [find]. destruct (t_match u n) eqn:T.
    - apply (TM u a UP UF) in T. unfold replot. rewrite TP, pattern_point, orb_false_r, UP. destruct (cspec (pattern_of (the_name arg)) (pattern_of (the_name a))) as [E|E].
      + split; [|reflexivity]. intros _. right. exists [], a, args. split; [reflexivity|]. split; [exact T|]. split; [intros b []|]. now apply pattern_same.
      + split; [discriminate|]. intros [N|(w & b & v & Q & B & N & S)]; [exfalso; apply (N a (or_introl eq_refl) T)|]. exfalso. destruct w as [|c w].
        * injection Q as <- <-. apply E. now apply pattern_same.
        * injection Q as <- _. apply (N a (or_introl eq_refl) T).
    - assert (T' : ~ asks_for (negb cs) a n) by (intros T'; apply (TM u a UP UF) in T'; congruence). rewrite IH. split.
      + intros [N|(w & b & v & -> & B & N & S)]; [left; intros b [<-|I]; [exact T'|now apply N]|]. right. exists (a :: w), b, v. split; [reflexivity|]. split; [exact B|]. split; [intros c [<-|I]; [exact T'|now apply N]|exact S].
      + intros [N|(w & b & v & Q & B & N & S)]; [left; intros b I; apply N; now right|]. right. destruct w as [|c w]; [injection Q as <- _; contradiction|]. injection Q as <- Q. exists w, b, v. split; [exact Q|]. split; [exact B|]. split; [intros c I; apply N; now right|exact S].
  Qed.
  Lemma targets_asked cs signals : Forall2 (fun u a => t_pattern u = pattern_of (the_name a) /\ t_fold u = negb cs) (targets cs signals) (asked signals).
  Proof.
    destruct (targets_patterns cs signals) as [P F]. revert P F. generalize (targets cs signals) (asked signals). induction l as [|u l IH]; intros [|a l']; try discriminate; [constructor|]. cbn [map]. intros P F. inversion F as [|? ? F1 F2]; subst. injection P as P1 P2. constructor; [now split|]. now apply IH.
  Qed.
  (** For each argument the signals that are drawn, in alphabetical order and each once *)
  Theorem C82_drawn cs signals (values : graphs) :
    NoDup (map fst values) -> Forall one_line (map fst values) ->
    List.length (draw (targets cs signals) values) = List.length (asked signals) /\
    forall i t calls arg, nth_error (draw (targets cs signals) values) i = Some (t, calls) -> nth_error (asked signals) i = Some arg ->
      nth_error (targets cs signals) i = Some t /\
      NoDup (map c_name calls) /\ StronglySorted (fun a b => text_leb a b = true) (map c_name calls) /\
      forall c, In c calls <-> c_target c = t /\ In (c_name c, c_graph c) values /\ drawn_for (negb cs) (firstn i (asked signals)) arg (c_name c).
  Proof.
    intros ND OL. set (names := sorted_texts (map fst values)). assert (PN : Permutation names (map fst values)) by apply sorted_py_perm. assert (NN : NoDup names) by (apply (Permutation_NoDup (l := map fst values)); [now symmetry|exact ND]).
    assert (SN : StronglySorted (fun a b => text_leb a b = true) names). { apply sorted_py_sorted; [|exact Prop_DbcNames.text_leb_trans]. intros a b H. destruct (Prop_DbcNames.text_leb_total a b); congruence. }
    pose proof (targets_asked cs signals) as TA.
    assert (D : forall i, nth_error (draw (targets cs signals) values) i = match nth_error (targets cs signals) i with Some t => Some (t, map (fun n => mkCall t n (graph_of values n)) (filter (chosen_after (firstn i (targets cs signals)) t) names)) | None => None end).
    { intros i. unfold draw. fold names. rewrite (targets_drawn values names NN _ [] []); [reflexivity|]. intros n _. reflexivity. }
    split.
    - assert (LE : List.length (targets cs signals) = List.length (asked signals)) by (clear - TA; induction TA; cbn; congruence). rewrite <- LE. clear LE. unfold draw. fold names. generalize (@nil (chars * target)). clear. induction (targets cs signals) as [|t l IH]; intros d; [reflexivity|]. cbn [draw_targets]. destruct (draw_names t d values names) as [c d']. cbn [List.length]. now rewrite IH.
    - intros i t calls arg N A. rewrite D in N. destruct (nth_error (targets cs signals) i) as [t'|] eqn:T; [|discriminate]. injection N as -> <-. split; [reflexivity|].
      assert (MC : forall l, map c_name (map (fun n => mkCall t n (graph_of values n)) l) = l). { intros l. rewrite map_map. cbn [c_name]. apply map_id. }
      rewrite MC. split; [now apply NoDup_filter|]. split.
      { clear - SN. induction SN as [|a l S IH F]; [constructor|]. cbn [filter]. destruct (chosen_after _ _ a); [|exact IH]. constructor; [exact IH|]. rewrite Forall_forall in *. intros b I. apply filter_In in I. now apply F. }
      assert (FF : Forall2 (fun u a => t_pattern u = pattern_of (the_name a) /\ t_fold u = negb cs) (firstn i (targets cs signals)) (firstn i (asked signals)) /\ t_pattern t = pattern_of (the_name arg) /\ t_fold t = negb cs).
      { clear - TA T A. revert i T A. induction TA as [|u a l l' U TA IH]; intros [|i] T A; try discriminate; cbn [nth_error firstn] in *; [injection T as ->; injection A as ->; split; [constructor|exact U]|]. destruct (IH i T A) as [B C]. split; [now constructor|exact C]. }
      destruct FF as (FF & TP & TF).
      assert (CI : forall n, In n (map fst values) -> chosen_after (firstn i (targets cs signals)) t n = true <-> drawn_for (negb cs) (firstn i (asked signals)) arg n). { intros n I. apply chosen_iff; [|exact FF|exact TP|exact TF]. rewrite Forall_forall in OL. now apply OL. }
      intros c. rewrite in_map_iff. split.
      + intros (n & <- & I). apply filter_In in I. destruct I as [I C]. assert (J : In n (map fst values)) by (now apply (Permutation_in _ PN)). cbn [c_target c_name c_graph]. split; [reflexivity|]. split; [|now apply CI].
        unfold graph_of. destruct (dget chars_eqb values n) as [g|] eqn:G; [now apply (get_in chars_eqb cspec)|]. apply (get_none chars_eqb cspec) in G. contradiction.
      + intros (E & I & W). assert (J : In (c_name c) (map fst values)) by (apply in_map_iff; exists (c_name c, c_graph c); now split). exists (c_name c). split.
        * unfold graph_of. rewrite (in_get chars_eqb cspec values _ _ ND I). destruct c as [ct cn cg]. cbn [c_target c_name c_graph] in *. now subst ct.
        * apply filter_In. split; [apply (Permutation_in _ (Permutation_sym PN)); exact J|now apply CI].
  Qed.
End Drawing.

(** What follows the first colon of an argument is the format; a bar at its beginning asks for stems. *)
Theorem C82_format cs subplot axis :
  (forall s f, ~ In ":"%char s -> (forall f', f <> "|"%char :: f') -> add_signal cs subplot axis (s ++ ":"%char :: f) = mkTarget (pattern_of s) (negb cs) subplot axis false f) /\
  (forall s f, ~ In ":"%char s -> add_signal cs subplot axis (s ++ ":"%char :: "|"%char :: f) = mkTarget (pattern_of s) (negb cs) subplot axis true f) /\
  (forall s, ~ In ":"%char s -> add_signal cs subplot axis s = mkTarget (pattern_of s) (negb cs) subplot axis false []).
Proof.
  assert (C : forall s f, ~ In ":"%char s -> cut_at ":" (s ++ ":"%char :: f) = Some (s, f)).
  { induction s as [|c s IH]; intros f N; [reflexivity|]. cbn [List.app cut_at]. destruct (Ascii.eqb_spec c ":") as [->|_]; [exfalso; apply N; now left|]. rewrite IH; [reflexivity|]. intros I. apply N. now right. }
  split; [|split].
  - intros s f N B. unfold add_signal. rewrite C by exact N. destruct f as [|c f]; [reflexivity|]. cbn [txt list_ascii_of_string after]. destruct (Ascii.eqb_spec "|" c) as [E|_]; [|reflexivity]. exfalso. apply (B f). now rewrite <- E.
  - intros s f N. unfold add_signal. rewrite C by exact N. reflexivity.
  - intros s N. unfold add_signal. destruct (cut_at ":" s) as [[a f]|] eqn:E; [|reflexivity]. exfalso. apply N. destruct (cut_name s) as [A _]. destruct (A a f E) as [-> _]. apply in_elt.
Qed.
(** A warning is printed exactly for the arguments for which nothing is drawn. *)
Theorem C82_warned {X Y} cs signals (values : list (chars * graph (X := X) (Y := Y))) :
  NoDup (map fst values) -> Forall one_line (map fst values) ->
  forall t, In t (warned (draw (targets cs signals) values)) <->
    exists i arg, nth_error (targets cs signals) i = Some t /\ nth_error (asked signals) i = Some arg /\ forall name, In name (map fst values) -> ~ drawn_for (negb cs) (firstn i (asked signals)) arg name.
Proof.
  intros ND OL t. destruct (C82_drawn cs signals values ND OL) as [LE D]. unfold warned. rewrite in_map_iff. split.
  - intros ([t' calls] & E & I). cbn [fst] in E. subst t'. apply filter_In in I. destruct I as [I NE]. cbn [snd] in NE. destruct calls; [clear NE|discriminate]. apply In_nth_error in I. destruct I as (i & N).
    assert (L : (i < List.length (asked signals))%nat) by (rewrite <- LE; apply nth_error_Some; congruence). apply nth_error_Some in L. destruct (nth_error (asked signals) i) as [arg|] eqn:A; [|contradiction]. exists i, arg. destruct (D i t [] arg N A) as (T & _ & _ & C). split; [exact T|]. split; [exact A|].
    intros name J W. apply in_map_iff in J. destruct J as ([n g] & <- & J). destruct (C (mkCall t n g)) as [_ C']. apply C'. cbn [c_target c_name c_graph fst] in *. exact (conj eq_refl (conj J W)).
  - intros (i & arg & T & A & N). assert (L : (i < List.length (draw (targets cs signals) values))%nat) by (rewrite LE; apply nth_error_Some; congruence). apply nth_error_Some in L. destruct (nth_error (draw (targets cs signals) values) i) as [[t' calls]|] eqn:E; [|contradiction]. destruct (D i t' calls arg E A) as (T' & _ & _ & C). assert (t' = t) by congruence. subst t'.
    exists (t, calls). split; [reflexivity|]. apply filter_In. split; [now apply nth_error_In in E|]. cbn [snd]. destruct calls as [|c calls]; [reflexivity|]. exfalso. destruct (C c) as [C' _]. destruct (C' (or_introl eq_refl)) as (_ & I & W). apply (N (c_name c)); [|exact W]. apply in_map_iff. exists (c_name c, c_graph c). now split.
Qed.

(** ** Examples *)
Definition ex_signals : list chars := map txt ["Motor.Speed"; "-"; "t*:|o"; ","; "M*.?peed:r"; "motor.speed"].
Definition ex_name (m : bool) : chars := if m then txt "Motor" else txt "Gear".
Definition ex_lookup (id : Z) : option bool := if id =? 1 then Some true else if id =? 2 then Some false else None.
Definition ex_decode (m : bool) (data : list Z) : result (list (chars * Z)) :=
  match data with [a; b] => if m then Ok [(txt "Speed", a); (txt "Temp", b)] else Ok [(txt "Ratio", a)] | _ => Err DecodeError end.
Definition ex_frames : list (Z * Z * list Z) := [(0, 1, [5; 60]); (1, 2, [3; 3]); (2, 9, []); (3, 1, [7; 61]); (4, 1, [1]); (50, 1, [8; 62])].
Definition ex_plot := add_msgs true (fun a b => a + 10 <? b) (fun a => a + 5) ex_lookup ex_name ex_decode (mkOptions true true false false) (targets false ex_signals) ex_frames.
Example C82_hypotheses :
  map fst (p_values ex_plot) = [txt "Motor.Speed"; txt "Motor.Temp"] /\
  p_values ex_plot = [(txt "Motor.Speed", [(0, Some 5); (3, Some 7); (8, None); (50, Some 8)]); (txt "Motor.Temp", [(0, Some 60); (3, Some 61); (8, None); (50, Some 62)])] /\
  p_unknown ex_plot = [2] /\ p_invalid ex_plot = [4] /\ p_said ex_plot = [SaidUnknown 9; SaidInvalid 1] /\
  map (fun t => (t_subplot t, t_axis t, t_stem t, t_fmt t)) (targets false ex_signals) = [(1, 0, false, []); (2, 0, true, txt "o"); (2, 1, false, txt "r"); (2, 1, false, [])] /\
  map (fun p => map c_name (snd p)) (draw (targets false ex_signals) (p_values ex_plot)) = [[txt "Motor.Speed"]; [txt "Motor.Temp"]; []; []] /\
  NoDup (map fst (p_values ex_plot)) /\ Forall one_line (map fst (p_values ex_plot)).
Proof.
  split; [vm_compute; reflexivity|]. split; [vm_compute; reflexivity|]. split; [vm_compute; reflexivity|]. split; [vm_compute; reflexivity|]. split; [vm_compute; reflexivity|]. split; [vm_compute; reflexivity|]. split; [vm_compute; reflexivity|].
  split; [apply C82_graphs|]. assert (E : map fst (p_values ex_plot) = [txt "Motor.Speed"; txt "Motor.Temp"]) by (vm_compute; reflexivity). rewrite E. repeat constructor; intros I; cbn in I; intuition discriminate.
Qed.

(** ** What does not hold *)
Definition complete (arg : chars) : Prop := In "."%char arg /\ ~ In "*"%char arg /\ ~ In "?"%char arg /\ ~ In ":"%char arg.
(** The comment in is_replotting_desired says that a signal whose complete name is given is plotted even if it was plotted before. *)
Theorem C82_replot_refuted : ~ (forall cs signals (values : list (chars * graph (X := Z) (Y := Z))), NoDup (map fst values) -> Forall one_line (map fst values) ->
  forall i t calls arg, nth_error (draw (targets cs signals) values) i = Some (t, calls) -> nth_error (asked signals) i = Some arg -> complete arg -> In arg (map fst values) -> In arg (map c_name calls)).
Proof.
  intros H. specialize (H false [txt "*"; txt "M.S"] [(txt "M.S", [(0, Some 1)])]). assert (A : NoDup (map (@fst chars (graph (X := Z) (Y := Z))) [(txt "M.S", [(0, Some 1)])])) by (repeat constructor; intros []).
  assert (B : Forall one_line (map (@fst chars (graph (X := Z) (Y := Z))) [(txt "M.S", [(0, Some 1)])])) by (repeat constructor; intros I; cbn in I; intuition discriminate).
  specialize (H A B 1%nat (add_signal false 1 0 (txt "M.S")) [] (txt "M.S")). apply H; [vm_compute; reflexivity|vm_compute; reflexivity| |now left].
  repeat split; [right; now left| | |]; intros I; cbn in I; intuition discriminate.
Qed.
(** With --case-sensitive the values of signals are collected that no argument selects. *)
Theorem C82_collect_refuted : ~ (forall cs signals name, one_line name -> displayed (targets cs signals) name = true -> exists arg, In arg (asked signals) /\ asks_for (negb cs) arg name).
Proof.
  intros H. assert (O : one_line (txt "M.S")) by (intros I; cbn in I; intuition discriminate). destruct (H true [txt "m.s"] (txt "M.S") O) as (arg & I & A); [vm_compute; reflexivity|].
  change (asked [txt "m.s"]) with [txt "m.s"] in I. destruct I as [<-|[]]. apply (pattern_selects (negb true) (txt "m.s") (txt "M.S") O) in A. vm_compute in A. discriminate.
Qed.
