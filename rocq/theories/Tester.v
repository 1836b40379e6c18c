(** Tester: model of src/cantools/tester.py.

    External: python-can.  [can.Message(check=True)] is modelled by [can_message]; a periodic task is
    a frame with a running flag, started by [bus.send_periodic], changed by [modify_data] and ended
    by [stop] (trusted).  One thread uses the tester; the listener runs in a second thread and only
    appends to the input queue.  Simplifications: the on_message callback and the checks of node
    and bus names in the constructor (335-350) are left out. *)
From Verif Require Import Base PyNum Conversion Signal Message Container Database.

(** ** Signal tree *)

(** The result of [invert_signal_tree]: signal names and the sets of (multiplexer, id) pairs. *)
Definition settings := list (string * Z).
Definition inverted := list (string * list settings).

(** tester.py:64 [ret.setdefault(sigs, []).append(..)] *)
Definition inv_add (ret : inverted) (n : string) (s : settings) : inverted :=
  sset ret n ((match sget ret n with Some l => l | None => [] end) ++ [s]).

(** tester.py:36-77 [invert_signal_tree] *)
Fixpoint invert (t : stree) (cur : settings) (ret : inverted) : inverted :=
  match t with
  | STree nodes =>
      (fix go (ns : list (string * option (list (Z * stree)))) (ret : inverted) : inverted :=
         match ns with
         | [] => ret
         | (name, None) :: r => go r (inv_add ret name cur)
         | (name, Some cs) :: r =>
             go r ((fix kids (cs : list (Z * stree)) (ret : inverted) : inverted :=
                      match cs with
                      | [] => ret
                      | (i, t') :: cr => kids cr (invert t' (sset cur name i) ret)
                      end) cs ret)
         end) nodes ret
  end.
Definition invert_signal_tree (t : stree) : inverted := invert t [] [].

(** ** Reception *)

(** A frame given to the listener *)
Record rx_frame := mkRx { rx_id : Z; rx_extended : bool; rx_error : bool; rx_remote : bool; rx_data : list Z }.
(** tester.py:16-23 [DecodedMessage] *)
Record decoded := mkDecoded { d_name : string; d_signals : list (string * value) }.

(** The settings of a tester message that the listener reads. *)
Record rx_conf := mkRxConf { rc_enabled : bool; rc_choices : bool; rc_scaling : bool }.

(** tester.py:87-112 [on_message_received]: the message put into the queue, if any.  An exception
    of [decode] leaves the listener (Err). *)
Definition on_message_received (db : database) (conf : list (string * rx_conf)) (f : rx_frame) : result (option decoded) :=
  if rx_error f || rx_remote f then Ok None
  else match get_message_by_frame_id db (rx_id f) (rx_extended f) with
       | Err _ => Ok None
       | Ok e =>
           match sget conf (m_name (e_msg e)) with
           | None => Ok None
           | Some c =>
               if rc_enabled c then
                 let* o := entry_decode e (rx_data f) (rc_choices c) (rc_scaling c) false false true in
                 match o with
                 | ODict d => Ok (Some (mkDecoded (m_name (e_msg e)) d))
                 | OItems _ => Err AssertionError
                 end
               else Ok None
           end
       end.

(** ** expect *)

(** Python [a == b] on signal values *)
Definition value_eq (a b : value) : bool :=
  match a, b with
  | VNamed v n, y => named_eq v n y
  | x, VNamed v n => named_eq v n x
  | VNum x, VNum y => py_eq x y
  | VStr s, VStr t => String.eqb s t
  | _, _ => false
  end.

(** tester.py:232 [all(message.signals[name] == signals[name] for name in signals)] *)
Fixpoint all_equal (got want : list (string * value)) : result bool :=
  match want with
  | [] => Ok true
  | (n, v) :: r =>
      let* x := sget_exn got n in
      if value_eq x v then all_equal got r else Ok false
  end.
(** tester.py:231-233 [_filter_expected_message] *)
Definition filter_expected (name : string) (want : list (string * value)) (m : decoded) : result bool :=
  if String.eqb (d_name m) name then all_equal (d_signals m) want else Ok false.

(** Outcome of an expect call *)
Inductive expected := Got (m : decoded) | NoMessage | Raised (e : exn).

(** tester.py:183-202 [_expect_input_list]: outcome and the new input list; [NoMessage]: go on with
    the queue.  [others] are the messages popped so far. *)
Fixpoint expect_list (flt : decoded -> result bool) (discard : bool) (inl others : list decoded)
  : expected * list decoded :=
  match inl with
  | [] => (NoMessage, if discard then [] else others)
  | m :: r =>
      match flt m with
      | Err e => (Raised e, r)
      | Ok true => (Got m, if discard then r else others ++ r)
      | Ok false => expect_list flt discard r (others ++ [m])
      end
  end.

(** The input list and the queue *)
Record inbox := mkInbox { ib_list : list decoded; ib_queue : list decoded }.

(** tester.py:204-229 [_expect_input_queue], interleaved with receptions: [queue_run .. b rs o b']
    means that from [b] the loop can end with outcome [o] in [b'] while the listener puts [rs] into
    the queue.  How long the waiting takes is left open: with a timeout the call may return at any
    point where the code checks the time. *)
Inductive queue_run (flt : decoded -> result bool) (timeout discard : bool)
  : inbox -> list decoded -> expected -> inbox -> Prop :=
| qr_put l q m rs o b : queue_run flt timeout discard (mkInbox l (q ++ [m])) rs o b ->
                        queue_run flt timeout discard (mkInbox l q) (m :: rs) o b
| qr_empty l : timeout = true ->                              (* queue.Empty, 214-215 *)
               queue_run flt timeout discard (mkInbox l []) [] NoMessage (mkInbox l [])
| qr_raise l m q e : flt m = Err e ->
               queue_run flt timeout discard (mkInbox l (m :: q)) [] (Raised e) (mkInbox l q)
| qr_match l m q : flt m = Ok true ->
               queue_run flt timeout discard (mkInbox l (m :: q)) [] (Got m) (mkInbox l q)
| qr_late l m q : flt m = Ok false -> timeout = true ->       (* 228-229 *)
               queue_run flt timeout discard (mkInbox l (m :: q)) [] NoMessage
                         (mkInbox (if discard then l else l ++ [m]) q)
| qr_next l m q rs o b : flt m = Ok false ->
               queue_run flt timeout discard (mkInbox (if discard then l else l ++ [m]) q) rs o b ->
               queue_run flt timeout discard (mkInbox l (m :: q)) rs o b.

(** tester.py:170-181 [Message.expect] with 458-486; [rs] are the messages put into the queue during
    the call *)
Inductive expect_run (name : string) (want : list (string * value)) (timeout discard : bool)
  : inbox -> list decoded -> expected -> inbox -> Prop :=
| er_list b rs o l : expect_list (filter_expected name want) discard (ib_list b) [] = (o, l) -> o <> NoMessage ->
    expect_run name want timeout discard b rs o (mkInbox l (ib_queue b ++ rs))
| er_queue b rs o l b' : expect_list (filter_expected name want) discard (ib_list b) [] = (NoMessage, l) ->
    queue_run (filter_expected name want) timeout discard (mkInbox l (ib_queue b)) rs o b' ->
    expect_run name want timeout discard b rs o b'.

(** tester.py:488-496 [flush_input]; [n] of the messages put during the call arrive too late to be
    flushed *)
Definition flush (b : inbox) (late : list decoded) : inbox := mkInbox [] late.

(** ** Sending *)

(** A frame for the bus *)
Record frame := mkFrame { fr_id : Z; fr_extended : bool; fr_data : list Z; fr_fd : bool }.

(** can.Message(check=True): ids, sizes and dlc *)
Definition can_message (id : Z) (ext : bool) (data : list Z) (fd : bool) (dlc : Z) : result frame :=
  if (id <? 0) || (if ext then 0x20000000 <=? id else 0x800 <=? id) then Err ValueError
  else if (dlc <? 0) || (if fd then 64 <? dlc else 8 <? dlc) || negb (dlc =? zlen data) then Err ValueError
  else Ok (mkFrame id ext data fd).

(** What the database and the constructor arguments say about a message of the tester. *)
Record tconf := mkTconf {
  tc_entry : entry;
  tc_fd : bool;
  tc_periodic : bool;                       (* cycle_time is not None, tester.py:142-144 *)
  tc_senders : list string;
  tc_initial : list (string * value);       (* signal.initial of the signals that have one *)
  tc_scaling : bool; tc_padding : bool; tc_strict : bool
}.
Definition tc_msg (c : tconf) : message := e_msg (tc_entry c).

(** tester.py:115-140, the attributes that change *)
Record tmsg := mkTmsg {
  tm_conf : tconf;
  tm_enabled : bool;
  tm_data : list (string * value);
  tm_frame : option frame;                  (* _can_message *)
  tm_task : option nat                      (* _periodic_task: index into the tasks *)
}.
(** A periodic task: the message that started it, its frame, is it running? *)
Record task := mkTask { tk_owner : string; tk_frame : option frame; tk_running : bool }.

Definition set_nth {A} (n : nat) (f : A -> A) (l : list A) : list A :=
  map (fun ix => if Nat.eqb (fst ix) n then f (snd ix) else snd ix) (combine (seq 0 (List.length l)) l).

(** tester.py:248-261: the frame made from the data *)
Definition make_frame (c : tconf) (d : list (string * value)) : result frame :=
  let* g := gather_signals (tc_msg c) d in
  let* b := entry_encode (tc_entry c) (IDict g) (tc_scaling c) (tc_padding c) (tc_strict c) in
  can_message (m_frame_id (tc_msg c)) (m_extended (tc_msg c)) b (tc_fd c) (m_length (tc_msg c)).

Notation upd := (tmsg * list task * option exn)%type.
(** tester.py:248-264 [_update_can_message] after the data has been set to [d] *)
Definition update_can_message (m : tmsg) (d : list (string * value)) (ts : list task) : upd :=
  match make_frame (tm_conf m) d with
  | Err e => (mkTmsg (tm_conf m) (tm_enabled m) d (tm_frame m) (tm_task m), ts, Some e)
  | Ok f => (mkTmsg (tm_conf m) (tm_enabled m) d (Some f) (tm_task m),
             match tm_task m with
             | Some k => set_nth k (fun t => mkTask (tk_owner t) (Some f) (tk_running t)) ts
             | None => ts
             end, None)
  end.

Definition signal_names (m : tmsg) : list string := map s_name (m_signals (tc_msg (tm_conf m))).

(** tester.py:155-162 [update] *)
Definition msg_update (m : tmsg) (d : list (string * value)) (ts : list task) : upd :=
  if forallb (fun kv => strmem (fst kv) (signal_names m)) d
  then update_can_message m (supdate (tm_data m) d) ts
  else (m, ts, Some KeyError).
(** tester.py:149-153 [__setitem__] *)
Definition msg_setitem (m : tmsg) (k : string) (v : value) (ts : list task) : upd :=
  if strmem k (signal_names m) then update_can_message m (sset (tm_data m) k v) ts
  else (m, ts, Some KeyError).
(** collections.UserDict.__delitem__ and __ior__, which tester.py does not override *)
Definition msg_delitem (m : tmsg) (k : string) : tmsg * option exn :=
  if smem (tm_data m) k
  then (mkTmsg (tm_conf m) (tm_enabled m) (sdel (tm_data m) k) (tm_frame m) (tm_task m), None)
  else (m, Some KeyError).
Definition msg_ior (m : tmsg) (d : list (string * value)) : tmsg :=
  mkTmsg (tm_conf m) (tm_enabled m) (supdate (tm_data m) d) (tm_frame m) (tm_task m).

(** tester.py:235-241 *)
Definition periodic_start (name : string) (m : tmsg) (ts : list task) : tmsg * list task :=
  if tm_enabled m
  then (mkTmsg (tm_conf m) (tm_enabled m) (tm_data m) (tm_frame m) (Some (List.length ts)),
        ts ++ [mkTask name (tm_frame m) true])
  else (m, ts).
(** tester.py:243-246 *)
Definition periodic_stop (m : tmsg) (ts : list task) : tmsg * list task :=
  match tm_task m with
  | Some k => (mkTmsg (tm_conf m) (tm_enabled m) (tm_data m) (tm_frame m) None,
               set_nth k (fun t => mkTask (tk_owner t) (tk_frame t) false) ts)
  | None => (m, ts)
  end.

(** *** The tester *)
Record tester := mkTester {
  te_dut : option string;
  te_messages : list (string * tmsg);
  te_running : bool;
  te_tasks : list task;
  te_sent : list (string * option frame)      (* frames given to bus.send, oldest first *)
}.

(** [self._dut_name and self._dut_name in message.database.senders] *)
Definition from_dut (dut : option string) (c : tconf) : bool :=
  match dut with
  | None => false
  | Some d => negb (String.eqb d EmptyString) && strmem d (tc_senders c)
  end.

(** tester.py:370-386 *)
Fixpoint start_all (dut : option string) (ms : list (string * tmsg)) (ts : list task)
  : list (string * tmsg) * list task :=
  match ms with
  | [] => ([], ts)
  | (n, m) :: r =>
      let (m', ts') := if from_dut dut (tm_conf m) || negb (tc_periodic (tm_conf m)) then (m, ts)
                       else periodic_start n m ts in
      let (r', ts'') := start_all dut r ts' in
      ((n, m') :: r', ts'')
  end.
(** tester.py:388-400 *)
Fixpoint stop_all (ms : list (string * tmsg)) (ts : list task) : list (string * tmsg) * list task :=
  match ms with
  | [] => ([], ts)
  | (n, m) :: r =>
      let (m', ts') := periodic_stop m ts in
      let (r', ts'') := stop_all r ts' in
      ((n, m') :: r', ts'')
  end.

Inductive op :=
| OStart | OStop
| OEnable (n : string) | ODisable (n : string)
| OSend (n : string) (d : option (list (string * value)))
| OUpdate (n : string) (d : list (string * value))        (* tester.messages[n].update(d) *)
| OSetItem (n k : string) (v : value)                     (* tester.messages[n][k] = v *)
| ODelItem (n k : string)                                 (* del tester.messages[n][k] *)
| OIor (n : string) (d : list (string * value)).          (* m = tester.messages[n]; m |= d *)

Definition with_msg (t : tester) (n : string) (m : tmsg) (ts : list task) : tester :=
  mkTester (te_dut t) (sset (te_messages t) n m) (te_running t) ts (te_sent t).
Definition set_enabled (m : tmsg) (b : bool) : tmsg :=
  mkTmsg (tm_conf m) b (tm_data m) (tm_frame m) (tm_task m).

(** One call; the exception it raised, if any.  Unknown message names: tester.py:32-33 *)
Definition step (t : tester) (o : op) : tester * option exn :=
  match o with
  | OStart =>
      let (ms, ts) := start_all (te_dut t) (te_messages t) (te_tasks t) in
      (mkTester (te_dut t) ms true ts (te_sent t), None)
  | OStop =>
      let (ms, ts) := stop_all (te_messages t) (te_tasks t) in
      (mkTester (te_dut t) ms false ts (te_sent t), None)
  | OEnable n =>                                          (* tester.py:420-432 *)
      match sget (te_messages t) n with
      | None => (t, Some CantoolsError)
      | Some m =>
          let m1 := set_enabled m true in
          let (m2, ts) := if te_running t && tc_periodic (tm_conf m) then periodic_start n m1 (te_tasks t)
                          else (m1, te_tasks t) in
          (with_msg t n m2 ts, None)
      end
  | ODisable n =>                                         (* tester.py:434-446 *)
      match sget (te_messages t) n with
      | None => (t, Some CantoolsError)
      | Some m =>
          let m1 := set_enabled m false in
          let (m2, ts) := if te_running t && tc_periodic (tm_conf m) then periodic_stop m1 (te_tasks t)
                          else (m1, te_tasks t) in
          (with_msg t n m2 ts, None)
      end
  | OSend n d =>                                          (* tester.py:164-168, 448-456 *)
      match sget (te_messages t) n with
      | None => (t, Some CantoolsError)
      | Some m =>
          let '(m1, ts, e) := match d with Some d => msg_update m d (te_tasks t) | None => (m, te_tasks t, None) end in
          let t1 := with_msg t n m1 ts in
          match e with
          | Some _ => (t1, e)
          | None => (mkTester (te_dut t1) (te_messages t1) (te_running t1) (te_tasks t1)
                              (te_sent t1 ++ [(n, tm_frame m1)]), None)
          end
      end
  | OUpdate n d =>
      match sget (te_messages t) n with
      | None => (t, Some CantoolsError)
      | Some m => let '(m1, ts, e) := msg_update m d (te_tasks t) in (with_msg t n m1 ts, e)
      end
  | OSetItem n k v =>
      match sget (te_messages t) n with
      | None => (t, Some CantoolsError)
      | Some m => let '(m1, ts, e) := msg_setitem m k v (te_tasks t) in (with_msg t n m1 ts, e)
      end
  | ODelItem n k =>
      match sget (te_messages t) n with
      | None => (t, Some CantoolsError)
      | Some m => let (m1, e) := msg_delitem m k in (with_msg t n m1 (te_tasks t), e)
      end
  | OIor n d =>
      match sget (te_messages t) n with
      | None => (t, Some CantoolsError)
      | Some m => (with_msg t n (msg_ior m d) (te_tasks t), None)
      end
  end.

(** *** Construction *)

(** Python truth value of a signal value *)
Definition truthy (v : value) : bool :=
  match v with
  | VNum n => negb (py_eq n (NInt 0))
  | VStr s => negb (String.eqb s EmptyString)
  | VNamed _ _ => true
  end.
Definition or_zero (x : option num) : num :=
  match x with Some n => if py_eq n (NInt 0) then NInt 0 else n | None => NInt 0 end.
Definition py_le (a b : num) : bool := match py_compare a b with Some Lt | Some Eq => true | _ => false end.

(** tester.py:270-273 *)
Definition mplex_settings (inv : inverted) : settings :=
  fold_left (fun acc m0 => fold_left (fun acc m1 => supdate acc m1) m0 acc) (rev (map snd inv)) [].

(** tester.py:275-288, one signal *)
Definition initial_value (c : tconf) (mpx : settings) (s : signal) : value :=
  let by_range :=
    let mn := or_zero (s_min s) in
    let mx := or_zero (s_max s) in
    if py_le mn (NInt 0) && py_le (NInt 0) mx then VNum (NInt 0) else VNum mn in
  let fallback := if s_is_mux s then VNum (NInt (match sget mpx (s_name s) with Some z => z | None => 0 end))
                  else by_range in
  match sget (tc_initial c) (s_name s) with
  | Some v => if truthy v then v else fallback
  | None => fallback
  end.

(** tester.py:266-289 [_prepare_initial_signal_values] *)
Definition initial_values (c : tconf) : list (string * value) :=
  let mpx := mplex_settings (invert_signal_tree (m_tree (tc_msg c))) in
  fold_left (fun d s => sset d (s_name s) (initial_value c mpx s)) (m_signals (tc_msg c)) [].

(** tester.py:117-140 [Message.__init__] *)
Definition new_tmsg (c : tconf) : result tmsg :=
  let m := mkTmsg c true [] None None in
  match msg_update m (initial_values c) [] with
  | (_, _, Some e) => Err e
  | (m', _, None) => Ok m'
  end.
(** tester.py:352-368; [cs] are the messages of the tester's bus in database order *)
Definition new_tester (dut : option string) (cs : list tconf) : result tester :=
  let* ms := foldM (fun acc c => let* m := new_tmsg c in Ok (sset acc (m_name (tc_msg c)) m)) cs [] in
  Ok (mkTester dut ms false [] []).
