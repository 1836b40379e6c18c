(** Cache: database/__init__.py - load_file, load_string and the load cache.

    The parsers of the five file formats, choice pruning and text decoding are parameters:
    nothing is assumed about them except that they are functions of their arguments
    (they read no other state).  The file system, the cache directories and histories of
    modifications and loads are modelled concretely. *)
From Coq Require Import Ascii.
From Verif Require Import Base CSource CNames.
Local Open Scope string_scope.
Local Open Scope Z_scope.
Local Open Scope list_scope.

(** ** Arguments *)

(** The argument [sort_signals] (utils.py:428-429): a value the cache key can contain (None, 'default', a function
    of cantools.database.utils), or a function of the caller.  Functions nested in another function and lambdas
    cannot be pickled. *)
Inductive sort_arg :=
| SortNone
| SortDefault
| SortLibrary (name : chars)
| SortUser (id : Z) (picklable : bool).

Record args := {
  a_file : chars; a_format : option chars; a_encoding : option chars;
  a_mask : option Z; a_prune : bool; a_strict : bool; a_sort : sort_arg }.

Inductive format := Arxml | Dbc | Kcd | Sym | Cdd.

(** What a load raises *)
Inductive load_error :=
| BadFormat                                      (* ValueError, unknown database_format *)
| Unsupported (errors : list (format * exn))     (* UnsupportedDatabaseFormatError, one entry per attempted format *)
| FileMissing                                    (* FileNotFoundError *)
| BadEncoding                                    (* LookupError from open() *)
| Unpicklable.                                   (* storing in the cache raises *)

(** ** Format and encoding *)

Definition dot : ascii := ".".
Definition slash : ascii := "/".
Definition chars_of (s : string) : chars := list_ascii_of_string s.

(** The text after the last separator *)
Fixpoint after_last (c : ascii) (l : chars) : option chars :=
  match l with
  | [] => None
  | x :: r => match after_last c r with Some t => Some t | None => if Ascii.eqb x c then Some r else None end
  end.
Definition basename (f : chars) : chars := match after_last slash f with Some b => b | None => f end.
Fixpoint skip_dots (l : chars) : chars := match l with x :: r => if Ascii.eqb x dot then skip_dots r else l | [] => [] end.
(** os.path.splitext(filename)[1][1:]: the extension of the last path component without its dot;
    the leading dots of that component do not start an extension. *)
Definition extension (f : chars) : chars := match after_last dot (skip_dots (basename f)) with Some e => e | None => [] end.
Definition lower (l : chars) : chars := map to_lower l.

(** __init__.py:31-46 _resolve_database_format_and_encoding *)
Definition resolve (fmt enc : option chars) (f : chars) : chars * chars :=
  let database_format := match fmt with Some x => x | None => lower (extension f) end in
  let encoding := match enc with
                  | Some e => e
                  | None => if chars_in database_format [chars_of "dbc"; chars_of "sym"] then chars_of "cp1252" else chars_of "utf-8"
                  end in
  (database_format, encoding).

Definition format_name (f : format) : chars :=
  chars_of match f with Arxml => "arxml" | Dbc => "dbc" | Kcd => "kcd" | Sym => "sym" | Cdd => "cdd" end.
Definition formats : list format := [Arxml; Dbc; Kcd; Sym; Cdd].

(** ** Loading *)
Section Load.
  Variables candb diagdb content text : Type.
  (** can.Database(frame_id_mask, strict, sort_signals) followed by add_<format>_string *)
  Variable load_can : format -> option Z -> bool -> sort_arg -> text -> result candb.
  (** utils.prune_database_choices *)
  Variable prune : candb -> result candb.
  (** diagnostics.Database().add_cdd_string *)
  Variable load_cdd : text -> result diagdb.
  (** Decoding a file's bytes, errors='replace'; None for an unknown encoding *)
  Variable decode_text : chars -> content -> option text.

  Inductive db := CanDb (d : candb) | DiagDb (d : diagdb).
  Definition outcome : Type := (db + load_error)%type.

  (** __init__.py:347-366 load_can_database, and 394-400 for cdd *)
  Definition try_format (mask : option Z) (prune_choices strict : bool) (sort : sort_arg) (s : text) (f : format) : result db :=
    match f with
    | Cdd => let* d := load_cdd s in Ok (DiagDb d)
    | _ =>
        let* d := load_can f mask strict sort s in
        let* d := (if prune_choices then prune d else Ok d) in
        Ok (CanDb d)
    end.
  (** The attempts in the order of the if statements (367-400); [except Exception] records the error. *)
  Fixpoint attempts (try : format -> result db) (fs : list format) : db + list (format * exn) :=
    match fs with
    | [] => inr []
    | f :: r =>
        match try f with
        | Ok d => inl d
        | Err e => match attempts try r with inl d => inl d | inr es => inr ((f, e) :: es) end
        end
    end.
  (** __init__.py:295-415 load_string; [database_format] None means any *)
  Definition load_string (s : text) (database_format : option chars) (mask : option Z) (prune_choices strict : bool) (sort : sort_arg) : outcome :=
    let wanted := match database_format with
                  | None => formats
                  | Some n => filter (fun f => chars_eqb (format_name f) n) formats
                  end in
    match wanted with
    | [] => inr BadFormat
    | _ => match attempts (try_format mask prune_choices strict sort s) wanted with
           | inl d => inl d
           | inr es => inr (Unsupported es)
           end
    end.

  (** ** Files and caches *)
  Definition files := list (chars * (content * Z)).
  Record key := { k_format : chars; k_encoding : chars; k_mask : option Z; k_prune : bool; k_strict : bool;
                  k_sort : sort_arg; k_file : chars; k_mtime : Z }.
  Definition sort_eq_dec (a b : sort_arg) : {a = b} + {a <> b}.
  Proof. decide equality; solve [apply Z.eq_dec | apply bool_dec | apply (list_eq_dec ascii_dec)]. Defined.
  Definition key_eq_dec (a b : option key) : {a = b} + {a <> b}.
  Proof.
    decide equality; decide equality;
      solve [apply Z.eq_dec | apply sort_eq_dec | apply bool_dec | apply (list_eq_dec ascii_dec) | decide equality; apply Z.eq_dec].
  Defined.
  Definition key_eqb (a b : option key) : bool := if key_eq_dec a b then true else false.
  (** One diskcache directory; keys and values are stored pickled, so a stored value is a copy. *)
  Definition cache := list (option key * db).
  Definition caches := list (chars * cache).
  Definition cache_of (cs : caches) (dir : chars) : cache := match dget chars_eqb cs dir with Some c => c | None => [] end.

  (** __init__.py:166-172: open, read, load *)
  Definition read_file (fs : files) (fmt enc : chars) (a : args) : outcome :=
    match dget chars_eqb fs (a_file a) with
    | None => inr FileMissing
    | Some (c, _) =>
        match decode_text enc c with
        | None => inr BadEncoding
        | Some t => load_string t (Some fmt) (a_mask a) (a_prune a) (a_strict a) (a_sort a)
        end
    end.
  (** __init__.py:148-159: the key; None for a function of the caller *)
  Definition cache_key (fs : files) (fmt enc : chars) (a : args) : option key + load_error :=
    match a_sort a with
    | SortUser _ _ => inl None
    | s =>
        match dget chars_eqb fs (a_file a) with
        | None => inr FileMissing
        | Some (_, mtime) =>
            inl (Some {| k_format := fmt; k_encoding := enc; k_mask := a_mask a; k_prune := a_prune a; k_strict := a_strict a;
                         k_sort := s; k_file := a_file a; k_mtime := mtime |})
        end
    end.
  (** A CAN database holds its sort_signals argument (can/database.py:71), so it is pickled with it. *)
  Definition can_pickle (d : db) (a : args) : bool :=
    match d, a_sort a with CanDb _, SortUser _ p => p | _, _ => true end.

  (** __init__.py:129-141: the cache directory in effect *)
  Definition cache_dir (available : bool) (env dir : option chars) : option chars :=
    let truthy := fun o : option chars => match o with Some (_ :: _) => true | _ => false end in
    let d := if truthy dir then dir else env in
    if truthy d && available then d else None.

  (** __init__.py:48-177 load_file.  [fs] is the file system when the modification time is read,
      [fs'] when the file is opened. *)
  Definition load_file (fs fs' : files) (cs : caches) (dir : option chars) (a : args) : outcome * caches :=
    let (fmt, enc) := resolve (a_format a) (a_encoding a) (a_file a) in
    match dir with
    | None => (read_file fs' fmt enc a, cs)
    | Some dir =>
        match cache_key fs fmt enc a with
        | inr e => (inr e, cs)
        | inl k =>
            match dget key_eqb (cache_of cs dir) k with
            | Some d => (inl d, cs)
            | None =>
                match read_file fs' fmt enc a with
                | inr e => (inr e, cs)
                | inl d => if can_pickle d a then (inl d, dset chars_eqb cs dir (dset key_eqb (cache_of cs dir) k d))
                           else (inr Unpicklable, cs)
                end
            end
        end
    end.

  (** ** Histories *)
  Inductive file_op := Write (f : chars) (c : content) (mtime : Z) | Remove (f : chars).
  Inductive event :=
  | File (o : file_op)
  (** a load; [during] are modifications between reading the modification time and opening the file *)
  | Load (dir : option chars) (a : args) (during : list file_op)
  (** diskcache drops an entry, or the user the directory *)
  | Evict (dir : chars) (k : option key)
  | Clear (dir : chars).

  Definition apply_op (fs : files) (o : file_op) : files :=
    match o with Write f c m => dset chars_eqb fs f (c, m) | Remove f => ddel chars_eqb fs f end.
  Definition apply_ops (fs : files) (os : list file_op) : files := fold_left apply_op os fs.
  Definition step (st : files * caches) (e : event) : files * caches :=
    let (fs, cs) := st in
    match e with
    | File o => (apply_op fs o, cs)
    | Load dir a during => let fs' := apply_ops fs during in (fs', snd (load_file fs fs' cs dir a))
    | Evict dir k => (fs, dset chars_eqb cs dir (ddel key_eqb (cache_of cs dir) k))
    | Clear dir => (fs, ddel chars_eqb cs dir)
    end.
  Definition run (h : list event) : files * caches := fold_left step h ([], []).
End Load.
