(** Similar: the inexact comparison of databases (src/cantools/database/can/database.py: Database.is_similar and _differences).
    Python objects are the entries of a list and refer to each other by their position, so they may be shared and cyclic.
    An attribute is an object that is the same whenever it is asked for; properties that raise are not modelled.  The texts of the
    reported values and the order of the differences of a dictionary (sorted by the text of the key) are not modelled. *)
From Coq Require Import Ascii Floats.SpecFloat.
From Verif Require Import Base PyNum CSource.
Local Open Scope string_scope.
Local Open Scope nat_scope.
Local Open Scope list_scope.

(** Keys of dictionaries *)
Inductive key := KNone | KInt (z : Z) | KStr (t : string).
Definition key_eqb (a b : key) : bool :=
  match a, b with KNone, KNone => true | KInt x, KInt y => Z.eqb x y | KStr x, KStr y => String.eqb x y | _, _ => false end.
(** An instance has a class and all its attributes in the order of dir(), private ones included. *)
Inductive obj :=
| OCall (ty : string) | ONone | OInt (z : Z) | OBool (b : bool) | OStr (t : string) | OSet (l : list string) | OFloat (f : float)
| OList (l : list nat) | OTuple (l : list nat) | ODict (ordered : bool) (l : list (key * nat)) | OInst (cls : string) (attrs : list (string * nat)).
(** type(a) *)
Definition type_of (o : obj) : string :=
  match o with
  | OCall ty => ty | ONone => "NoneType" | OInt _ => "int" | OBool _ => "bool" | OStr _ => "str" | OSet _ => "set" | OFloat _ => "float"
  | OList _ => "list" | OTuple _ => "tuple" | ODict b _ => if b then "OrderedDict" else "dict" | OInst cls _ => cls
  end.
Inductive step := SIndex (i : nat) | SKey (k : key) | SAttr (name : string).
Inductive reason := TypeMismatch | ValueMismatch | FloatRel | FloatAbs | LengthMismatch | OnlyA | OnlyB | NamesMismatch.
Definition subset (a b : list string) : bool := forallb (fun x => strmem x b) a.

Section Compare.
  Context (heap : list obj) (ident : nat -> nat) (tolerance : float) (specifics : bool).
  Definition at_ (a : nat) : obj := nth a heap ONone.
  (** 228-233: the names that count *)
  Definition names_of (attrs : list (string * nat)) : list string :=
    filter (fun n => specifics || negb (String.eqb n "dbc" || String.eqb n "autosar")) (map fst attrs).
  Definition has (attrs : list (string * nat)) (n : string) : bool := smem attrs n.
  (** 197-203 *)
  Definition float_mismatch (a b : float) : list (list step * reason) :=
    if SFltb float_one (SFabs a) then
      if SFltb tolerance (SFabs (fsub float_one (fdiv b a))) then [([], FloatRel)] else []
    else if SFltb tolerance (SFabs (fsub b a)) then [([], FloatAbs)] else [].
  Definition only (l l' : list (key * nat)) (r : reason) : list (list step * reason) :=
    map (fun e => ([SKey (fst e)], r)) (filter (fun e => negb (dmem key_eqb l' (fst e))) l).
  (** The differences of two objects themselves *)
  Definition here (a b : nat) : list (list step * reason) :=
    if negb (String.eqb (type_of (at_ a)) (type_of (at_ b))) then [([], TypeMismatch)]
    else
      let value (same : bool) := if same then [] else [([], ValueMismatch)] in
      match at_ a, at_ b with
      | OInt x, OInt y => value (Z.eqb x y)
      | OBool x, OBool y => value (Bool.eqb x y)
      | OStr x, OStr y => value (String.eqb x y)
      | OSet x, OSet y => value (subset x y && subset y x)
      | OFloat x, OFloat y => float_mismatch x y
      | OList x, OList y | OTuple x, OTuple y => if Nat.eqb (List.length x) (List.length y) then [] else [([], LengthMismatch)]
      | ODict _ x, ODict _ y => only x y OnlyA ++ only y x OnlyB
      | OInst _ x, OInst _ y => if list_eq_dec string_dec (names_of x) (names_of y) then [] else [([], NamesMismatch)]
      | _, _ => []
      end.
  (** 239-256: what is compared for an attribute *)
  Definition attribute (x y : list (string * nat)) (n : string) : list (step * nat * nat) :=
    let get n := match sget x n, sget y n with Some c, Some d => [(SAttr n, c, d)] | _, _ => [] end in
    if String.eqb n "messages" && has x "_frame_id_to_message" then get "_frame_id_to_message"
    else if String.eqb n "signals" && has x "_signal_dict" then get "_signal_dict"
    else if String.prefix "_" n then [] else get n.
  (** The objects that are compared next *)
  Definition kids (a b : nat) : list (step * nat * nat) :=
    if negb (String.eqb (type_of (at_ a)) (type_of (at_ b))) then []
    else
      match at_ a, at_ b with
      | OList x, OList y | OTuple x, OTuple y => map (fun p => (SIndex (fst p), fst (snd p), snd (snd p))) (combine (seq 0 (List.length x)) (combine x y))
      | ODict _ x, ODict _ y => flat_map (fun e => match dget key_eqb x (fst e), dget key_eqb y (fst e) with Some c, Some d => [(SKey (fst e), c, d)] | _, _ => [] end) x
      | OInst _ x, OInst _ y => if list_eq_dec string_dec (names_of x) (names_of y) then flat_map (attribute x y) (names_of x) else []
      | _, _ => []
      end.
  Definition diff : Type := list step * reason.
  Definition memb (p : nat * nat) (l : list (nat * nat)) : bool := existsb (fun q => Nat.eqb (fst p) (fst q) && Nat.eqb (snd p) (snd q)) l.
  (** 178-256 compare; the result is the pairs that were seen and the differences, None if the fuel is used up *)
  Fixpoint compare (fuel : nat) (seen : list (nat * nat)) (path : list step) (a b : nat) : option (list (nat * nat) * list diff) :=
    match fuel with
    | O => None
    | S f =>
        if memb (ident a, ident b) seen then Some (seen, [])
        else
          match (fix go (seen : list (nat * nat)) (l : list (step * nat * nat)) : option (list (nat * nat) * list diff) :=
                   match l with
                   | [] => Some (seen, [])
                   | (s, x, y) :: r =>
                       match compare f seen (path ++ [s]) x y with
                       | None => None
                       | Some (seen1, d1) => match go seen1 r with None => None | Some (seen2, d2) => Some (seen2, d1 ++ d2) end
                       end
                   end) ((ident a, ident b) :: seen) (kids a b) with
          | None => None
          | Some (seen', d) => Some (seen', map (fun e => (path ++ fst e, snd e)) (here a b) ++ d)
          end
    end.
  (** 153-261 _differences, 139-151 is_similar *)
  Definition differences (fuel : nat) (a b : nat) : option (list diff) := option_map snd (compare fuel [] [] a b).
  Definition is_similar (fuel : nat) (a b : nat) : option bool := option_map (fun d => match d with [] => true | _ => false end) (differences fuel a b).
End Compare.
