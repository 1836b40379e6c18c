(** Prune: utils.py:322-426 prune_signal_choices, prune_database_choices.

    os.path.commonprefix, str.split, str.join and str.rfind are modelled by their documented behaviour.
    Names are ASCII; [a-zA-Z...] are the explicit classes of the source. *)
From Coq Require Import Ascii.
From Verif Require Import Base PyNum Conversion Signal CSource Regex.
Local Open Scope list_scope.

(** *** Strings *)
Fixpoint common_prefix2 (a b : chars) : chars :=
  match a, b with
  | x :: a', y :: b' => if Ascii.eqb x y then x :: common_prefix2 a' b' else []
  | _, _ => []
  end.
(** os.path.commonprefix *)
Fixpoint common_prefix (l : list chars) : chars :=
  match l with [] => [] | [a] => a | a :: r => common_prefix2 a (common_prefix r) end.
(** s[0:s.rfind('_')], None if there is no underscore *)
Fixpoint before_last (l : chars) : option chars :=
  match l with
  | [] => None
  | x :: r => match before_last r with
              | Some t => Some (x :: t)
              | None => if Ascii.eqb x underscore then Some [] else None
              end
  end.
(** s.split('_') *)
Fixpoint split (l : chars) : list chars :=
  match l with
  | [] => [[]]
  | x :: r => if Ascii.eqb x underscore then [] :: split r
              else match split r with w :: ws => (x :: w) :: ws | [] => [[x]] end
  end.
(** '_'.join(l) *)
Fixpoint join (l : list chars) : chars :=
  match l with [] => [] | [a] => a | a :: r => a ++ underscore :: join r end.

(** *** Names *)
Definition letter_ (c : ascii) : bool := is_upper c || is_lower c || Ascii.eqb c underscore.
(** utils.py:350: ^[0-9A-Za-z_] lazily repeated, an underscore, letters and underscores as group 1, end *)
Definition single_re : re :=
  Seq (Star false (Chr is_word)) (Seq (Chr (Ascii.eqb underscore)) (Seq (Group "1" (Plus true (Chr letter_))) Eol)).
(** utils.py:389: ^[a-zA-Z_][a-zA-Z0-9_] repeated, end *)
Definition valid_name_re : re := Seq (Chr letter_) (Seq (Star true (Chr is_word)) Eol).
Definition valid_name (x : chars) : bool := match re_match valid_name_re x with Some _ => true | None => false end.

(** utils.py:343-360: a single choice *)
Definition prune_single (name : chars) : chars :=
  match re_match single_re name with
  | Some c => match group c "1" with Some v => v | None => name end
  | None => name
  end.

(** utils.py:390-400: the loop over the number of prefix segments; the length to strip or None for return *)
Fixpoint strip_length (segments names : list chars) (i : nat) : option nat :=
  match i with
  | O => None
  | S i' =>
      let prefix := join (firstn i segments) ++ [underscore] in
      let n := List.length prefix in
      if forallb (fun x => valid_name (skipn n x)) names then Some n else strip_length segments names i'
  end.

(** utils.py:343-409 on the list of the choices' names *)
Definition prune_names (names : list chars) : list chars :=
  match names with
  | [name] => [prune_single name]
  | _ =>
      match before_last (common_prefix names) with
      | None => names
      | Some [] => names
      | Some full_prefix =>
          let segments := split full_prefix in
          match strip_length segments names (List.length segments) with
          | None => names
          | Some n => map (skipn n) names
          end
      end
  end.

(** Replacing a name: [signal.choices[key] = ...] for a str, [choice.name = ...] for a NamedSignalValue *)
Definition rename (c : choice) (n : chars) : choice :=
  match c with ChStr _ => ChStr (string_of_list_ascii n) | ChNamed v _ => ChNamed v (string_of_list_ascii n) end.
Definition names_of (ch : choices_t) : list chars := map (fun kc => list_ascii_of_string (choice_str (snd kc))) ch.
Definition prune_choices (ch : choices_t) : choices_t :=
  map (fun p => (fst (fst p), rename (snd (fst p)) (snd p))) (combine ch (prune_names (names_of ch))).

(** The dictionary (or its values) is changed in place: [_inverse_choices] stays as it is. *)
Definition prune_conversion (c : conversion) : conversion :=
  match c with
  | CNum _ => c
  | CNamed scale offset ch inv fl inner => CNamed scale offset (prune_choices ch) inv fl inner
  end.
Definition prune_signal_choices (s : signal) : signal :=
  mkSignal (s_name s) (s_start s) (s_length s) (s_big s) (s_signed s) (prune_conversion (s_conv s))
           (s_min s) (s_max s) (s_is_mux s) (s_mux_ids s) (s_mux_sig s).
