(** Base: exceptions as values, Python dictionaries, Python bytes/int conversions.

    Nothing here is cantools code; these are the Python built-ins the modelled code uses. *)
From Coq Require Export ZArith List String Bool Lia.
From Coq Require Export ZifyBool ZifyNat ZifyN.
Export ListNotations.
Open Scope Z_scope.

(** ** Exceptions *)

(** Python exception classes raised by the modelled code.
    [RangeError] stands for what bitstruct raises for a value that does not fit its field
    ([bitstruct.Error] in the pure Python backend, [OverflowError] in the C backend).
    [StructError] stands for the other [bitstruct.Error]s.
    [CantoolsError] is [cantools.errors.Error] (errors.py:1-4).
    [ParseError] stands for [textparser.ParseError], [textparser.TokenizeError] and
    [cantools.database.errors.ParseError]. *)
Inductive exn :=
| EncodeError | DecodeError | CantoolsError
| KeyError | ValueError | TypeError | OverflowError | ZeroDivisionError
| RangeError | StructError | RecursionError | AssertionError | IndexError | AttributeError
| ParseError | UnboundLocalError | RuntimeError.

Inductive result (A : Type) :=
| Ok (a : A)
| Err (e : exn).
Arguments Ok {A} a.
Arguments Err {A} e.

Definition bind {A B} (x : result A) (f : A -> result B) : result B :=
  match x with Ok a => f a | Err e => Err e end.

Notation "'let*' x ':=' e 'in' k" := (bind e (fun x => k))
  (at level 200, x pattern, e at level 100, k at level 200, right associativity).

Definition is_ok {A} (r : result A) : bool := match r with Ok _ => true | Err _ => false end.

Fixpoint mapM {A B} (f : A -> result B) (l : list A) : result (list B) :=
  match l with
  | [] => Ok []
  | x :: r => let* y := f x in let* ys := mapM f r in Ok (y :: ys)
  end.

Fixpoint foldM {A S} (f : S -> A -> result S) (l : list A) (s : S) : result S :=
  match l with
  | [] => Ok s
  | x :: r => let* s' := f s x in foldM f r s'
  end.

(** [try: r except <e in caught>: raise new] *)
Definition catch {A} (r : result A) (caught : exn -> bool) (handler : result A) : result A :=
  match r with
  | Ok a => Ok a
  | Err e => if caught e then handler else Err e
  end.

Definition exn_eqb (a b : exn) : bool :=
  match a, b with
  | EncodeError, EncodeError | DecodeError, DecodeError | CantoolsError, CantoolsError
  | KeyError, KeyError | ValueError, ValueError | TypeError, TypeError
  | OverflowError, OverflowError | ZeroDivisionError, ZeroDivisionError
  | RangeError, RangeError | StructError, StructError | RecursionError, RecursionError
  | AssertionError, AssertionError | IndexError, IndexError | AttributeError, AttributeError => true
  | _, _ => false
  end.

(** ** Dictionaries (insertion ordered, as in Python >= 3.7) *)
Section Dict.
  Context {K V : Type} (eqb : K -> K -> bool).
  Fixpoint dget (d : list (K * V)) (k : K) : option V :=
    match d with
    | [] => None
    | (k', v) :: r => if eqb k' k then Some v else dget r k
    end.
  (** [d[k] = v]: an existing key keeps its place. *)
  Fixpoint dset (d : list (K * V)) (k : K) (v : V) : list (K * V) :=
    match d with
    | [] => [(k, v)]
    | (k', v') :: r => if eqb k' k then (k', v) :: r else (k', v') :: dset r k v
    end.
  (** [d.update(e)] *)
  Definition dupdate (d e : list (K * V)) : list (K * V) :=
    fold_left (fun acc kv => dset acc (fst kv) (snd kv)) e d.
  (** [del d[k]] / [d.pop(k)] *)
  Fixpoint ddel (d : list (K * V)) (k : K) : list (K * V) :=
    match d with
    | [] => []
    | (k', v') :: r => if eqb k' k then r else (k', v') :: ddel r k
    end.
  Definition dmem (d : list (K * V)) (k : K) : bool :=
    match dget d k with Some _ => true | None => false end.
End Dict.

Notation sget := (dget String.eqb).
Notation sset := (dset String.eqb).
Notation supdate := (dupdate String.eqb).
Notation sdel := (ddel String.eqb).
Notation smem := (dmem String.eqb).
Notation zget := (dget Z.eqb).
Notation zset := (dset Z.eqb).

Definition zmem (x : Z) (l : list Z) : bool := existsb (Z.eqb x) l.
Definition strmem (x : string) (l : list string) : bool := existsb (String.eqb x) l.

(** [d[k]] on a missing key raises [KeyError]. *)
Definition sget_exn {V} (d : list (string * V)) (k : string) : result V :=
  match sget d k with Some v => Ok v | None => Err KeyError end.

Definition option_eqb {A} (eqb : A -> A -> bool) (a b : option A) : bool :=
  match a, b with
  | Some x, Some y => eqb x y
  | None, None => true
  | _, _ => false
  end.

(** Stable [sorted(l, key=...)]; [leb] compares keys. *)
Section Sort.
  Context {A : Type} (leb : A -> A -> bool).
  Fixpoint insert_sorted (x : A) (l : list A) : list A :=
    match l with
    | [] => [x]
    | y :: r => if leb x y then x :: y :: r else y :: insert_sorted x r
    end.
  Definition sorted_py (l : list A) : list A := fold_right insert_sorted [] l.
End Sort.

(** ** bytes and int.to_bytes / int.from_bytes *)
Definition byte_ok (b : Z) : Prop := 0 <= b < 256.
Definition bytes_ok (l : list Z) : Prop := Forall byte_ok l.

Definition zlen {A} (l : list A) : Z := Z.of_nat (List.length l).

(** [int.from_bytes(l, 'little')] and ['big'] *)
Fixpoint from_le (l : list Z) : Z :=
  match l with [] => 0 | b :: r => b + 256 * from_le r end.
Definition from_be (l : list Z) : Z := from_le (rev l).

Fixpoint to_le (n : nat) (v : Z) : list Z :=
  match n with O => [] | S n' => v mod 256 :: to_le n' (v / 256) end.
Definition to_be (n : nat) (v : Z) : list Z := rev (to_le n v).

(** [v.to_bytes(n, 'big')], [v.to_bytes(n, 'little')]: OverflowError when it does not fit. *)
Definition to_bytes_be (n : nat) (v : Z) : result (list Z) :=
  if (0 <=? v) && (v <? 256 ^ Z.of_nat n) then Ok (to_be n v) else Err OverflowError.
Definition to_bytes_le (n : nat) (v : Z) : result (list Z) :=
  if (0 <=? v) && (v <? 256 ^ Z.of_nat n) then Ok (to_le n v) else Err OverflowError.

(** [l[a:b]] for 0 <= a, 0 <= b *)
Definition slice {A} (a b : Z) (l : list A) : list A :=
  firstn (Z.to_nat (b - a)) (skipn (Z.to_nat a) l).

(** [range(n)] *)
Fixpoint zrange_from (a : Z) (n : nat) : list Z :=
  match n with O => [] | S n' => a :: zrange_from (a + 1) n' end.
Definition zrange (a b : Z) : list Z := zrange_from a (Z.to_nat (b - a)).
