(** Regex: regular expressions as used by Python's re module: backtracking with priorities, greedy and
    lazy repetition, named groups.  Used for the patterns of logreader.py and for dbc.py's tokens.
    Text is ASCII. *)
From Coq Require Import Ascii.
From Verif Require Import Base CSource.

(** Captured groups, latest first *)
Definition caps := list (string * chars).

Inductive re :=
| Eps
| Chr (p : ascii -> bool)             (* one character of a class *)
| Seq (a b : re)
| Alt (a b : re)                      (* a|b *)
| Star (greedy : bool) (r : re)       (* r* or r*?; r must not match the empty text *)
| Group (name : string) (r : re)      (* (?P<name>r) *)
| Eol.                                (* $ *)

Definition Plus (greedy : bool) (r : re) : re := Seq r (Star greedy r).
Definition Opt (r : re) : re := Alt r Eps.
Fixpoint Lit (l : chars) : re := match l with [] => Eps | c :: r => Seq (Chr (Ascii.eqb c)) (Lit r) end.
Fixpoint seqs (l : list re) : re := match l with [] => Eps | [r] => r | r :: l' => Seq r (seqs l') end.
Definition Times (n : nat) (r : re) : re := Nat.iter n (Seq r) Eps.

(** The text consumed between [s] and its suffix [s'] *)
Definition consumed (s s' : chars) : chars := firstn (List.length s - List.length s') s.

(** Alternatives are tried in order; the first one for which the continuation succeeds wins. *)
Fixpoint rmatch {X} (r : re) (c : caps) (s : chars) (k : caps -> chars -> option X) : option X :=
  match r with
  | Eps => k c s
  | Chr p => match s with x :: s' => if p x then k c s' else None | [] => None end
  | Seq a b => rmatch a c s (fun c' s' => rmatch b c' s' k)
  | Alt a b => match rmatch a c s k with Some x => Some x | None => rmatch b c s k end
  | Star greedy r' =>
      (fix star (fuel : nat) (c : caps) (s : chars) : option X :=
         match fuel with
         | O => k c s
         | S f =>
             if greedy then
               match rmatch r' c s (fun c' s' => if Nat.ltb (List.length s') (List.length s) then star f c' s' else None) with
               | Some x => Some x
               | None => k c s
               end
             else
               match k c s with
               | Some x => Some x
               | None => rmatch r' c s (fun c' s' => if Nat.ltb (List.length s') (List.length s) then star f c' s' else None)
               end
         end) (List.length s) c s
  | Group n r' => rmatch r' c s (fun c' s' => k ((n, consumed s s') :: c') s')
  | Eol => match s with
           | [] => k c s
           | [x] => if Ascii.eqb x newline then k c s else None
           | _ => None
           end
  end.

(** pattern.match(line): the groups, or None *)
Definition re_match (r : re) (line : chars) : option caps := rmatch r [] line (fun c _ => Some c).
(** match_object.group(name) *)
Definition group (c : caps) (name : string) : option chars := sget c name.

(** ** Character classes *)
Definition code (c : ascii) : N := N_of_ascii c.
(** \s: str.isspace for ASCII *)
Definition is_space (c : ascii) : bool := in_range "009" "013" c || in_range "028" " " c.
Definition non_space (c : ascii) : bool := negb (is_space c).
(** \w *)
Definition is_word (c : ascii) : bool := is_upper c || is_lower c || is_digit c || Ascii.eqb c underscore.
Definition hex_upper (c : ascii) : bool := is_digit c || in_range "A" "F" c.
Definition hex_any (c : ascii) : bool := hex_upper c || in_range "a" "f" c.
Definition is_char (x c : ascii) : bool := Ascii.eqb x c.
(** . *)
Definition dot (c : ascii) : bool := negb (Ascii.eqb c newline).
