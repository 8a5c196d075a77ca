(** Life of the connections of a stream channel: src/channel_io_stream.cpp 139-335, 636-1545
    (init, close, listen, connect, accept, name resolution, disconnect, and the part of reading
    and writing that decides when a connection is closed).  The contents of the messages are in
    IoRecv.v and IoWrite.v.

    The channel, the user's callbacks and libuv run on one thread.  The code is modelled as a
    machine that stops wherever foreign code runs: inside a callback of the user, or inside
    [uv_run] called by [io_stream_close].  What is left to do after the callback is a frame on
    an explicit stack.  An event [ev] is what the foreign code does next: call the API, return
    from the callback, or (libuv) deliver a completion.  [step] gives [None] for events libuv or
    the kernel never produce and for calls outside the documented use (a released connection).

    Simplifications.
    - Every callback is taken to be set; a callback that is not set is one that does nothing and
      is not seen.  The exception is the callback given to [io_stream_disconnect].
    - Memory allocation by [new] and [make_shared] never fails (it throws); the one [malloc] of
      the channel (the loop) may fail.
    - [active_reqs] is a 32-bit counter in the code and unbounded here.
    - A connection released from [conn_gc_pool] is gone, although the frame of
      [io_stream_listen] may hold a last reference to it; users must not use it then.
    - [io_stream_try_write] is only called by the channel itself. *)
From Verif Require Import Base.

Definition E_PARAMS : Z := (-1)%Z.
Definition E_BUFF_LIMIT : Z := (-4)%Z.
Definition E_MALLOC : Z := (-5)%Z.
Definition E_INVALID_SIZE : Z := (-8)%Z.
Definition E_CLOSING : Z := (-15)%Z.
Definition E_CHANNEL_CLOSING : Z := (-104)%Z.
Definition E_NOT_SUPPORT : Z := (-105)%Z.
Definition E_SOCK_BIND : Z := (-401)%Z.
Definition E_SOCK_LISTEN : Z := (-402)%Z.
Definition E_SOCK_CONNECT : Z := (-403)%Z.
Definition E_PIPE_BIND : Z := (-501)%Z.
Definition E_PIPE_LISTEN : Z := (-502)%Z.
Definition E_PIPE_CONNECT : Z := (-503)%Z.
Definition E_PIPE_ADDR : Z := (-504)%Z.
Definition E_DNS : Z := (-601)%Z.
Definition E_WRITE_FAILED : Z := (-603)%Z.

(** * Objects *)
(** Which close callback was handed to [uv_close]: 711, 727, 737. *)
Inductive closer := CConn | CAsync | CPtr.
Inductive hstate := HOpen | HClosing (w : closer) | HClosed | HFreed.
(** The [data] pointer of a handle. *)
Inductive hdata := DNull | DConn (c : nat) | DAsync (a : nat) | DPtr.
(** What libuv watches the handle for: [uv_listen], [uv_read_start]. *)
Inductive huse := UNone | UListen | URead.
(** A uv_tcp_t or uv_pipe_t; [h_own]: it lives on the loop the channel made for itself. *)
Record hnd := { h_st : hstate; h_data : hdata; h_use : huse; h_fd : option N; h_own : bool; h_pipe : bool }.

Inductive status := Connected | Disconnecting | Disconnected.
(** [io_stream_connection] (libatbus_channel_types.h 108-146): handle, fd, status, flags
    WRITING and CLOSING, callback of the last disconnect, messages waiting and messages in the
    block being written.  EN_ST_CREATED is never seen outside the function that creates the
    connection. *)
Record con := { k_live : bool; k_h : nat; k_fd : N; k_st : status; k_wr : bool; k_cl : bool; k_disc : option N; k_q : nat; k_fly : nat }.

(** [io_stream_connect_async_data] 623-633 and [io_stream_dns_async_data] 980-988: the request
    it answers, the stream, and for name resolution whether to listen or to connect. *)
Inductive akind := AStream (h : nat) (pipe : bool) | AName (listen : bool).
Record asy := { a_live : bool; a_req : nat; a_kind : akind }.

(** Requests libuv has accepted and not completed. *)
Inductive pnd := PConn (a : nat) | PDns (a : nat) | PWrite (c : nat).

(** * What can be observed *)
Inductive note :=
| NRet (r : nat) (code : Z)                                  (* listen or connect number r returned *)
| NAddr (r : nat) (ip : N)                                   (* address handed to bind or connect *)
| NConn (first : bool) (r : nat) (code : Z) (c : option nat) (* connected callback: of the channel, of the caller *)
| NAcc (first : bool) (l : nat) (code : Z) (c : option nat)  (* accepted callback of listener l *)
| NDisc (first : bool) (c : nat)                             (* disconnected callback *)
| NAsk (c : nat) (cb : option N)                             (* a disconnect with this callback: by the user, or with None by the channel *)
| NCb (c : nat) (cb : N)                                     (* callback given to disconnect *)
| NRecv (first : bool) (c : nat)                             (* received callback, with data or with an error *)
| NWrit (first : bool) (c : nat)                             (* written callback *)
| NSent (c : nat) (code : Z)                                 (* io_stream_send returned *)
| NClosed.                                                   (* io_stream_close returned *)

(** * Frames *)
(** The rest of a function after its callbacks.  The Boolean of a libuv callback is
    [is_active] of its [io_stream_flag_guard]; the number in [JGone]/[JErase] stands for the
    iterator into [conn_gc_pool]. *)
Inductive kont :=
| JRet (r : nat)                                  (* io_stream_listen called by the user *)
| JName (a : nat) (g : bool)                      (* end of io_stream_dns_connection_cb / _connect_cb *)
| JConn (a : nat) (ok : bool) (g : bool)          (* end of io_stream_all_connected_cb *)
| JAcc (h : option nat) (g : bool)                (* end of io_stream_*_connection_cb *)
| JGone (c : nat) (v : nat) (g : bool)            (* io_stream_connection_on_close, 658 *)
| JErase (c : nat) (v : nat) (g : bool)           (* io_stream_connection_on_close, 662 *)
| JRead (c : nat) (free : bool) (g : bool)        (* io_stream_on_recv_read_fn, 555 *)
| JFail (c : nat) (force : bool) (g : bool)       (* io_stream_on_recv_read_fn, 424 *)
| JWrit (c : nat) (g : bool)                      (* io_stream_on_written_fn, 1610 *)
| JCanc (c : nat) (g : bool).                     (* io_stream_on_written_fn, after try_write cancelled *)
Inductive phase := WPool | WReq | WOwn.
(** [Frame rest k]: in a callback, [rest] still to be called, then [k].
    [Wait p g]: [io_stream_close] inside uv_run, [g] = is_active of its guard. *)
Inductive frame := Frame (rest : list note) (k : kont) | Wait (p : phase) (g : bool).

(** * The channel *)
(** [pool]: conn_pool; [gc]: conn_gc_pool, keyed by address; [gv]: generation of its iterators;
    [cl], [cb], [ow]: flags CLOSING, IN_CALLBACK, IS_LOOP_OWNER; [lp]: ev_loop is not NULL. *)
Record st := { hs : nat -> hnd; nh : nat; cs : nat -> con; nc : nat; az : nat -> asy; na : nat; nr : nat;
               pool : list (N * nat); gc : list (nat * nat); gv : nat; pend : list pnd; reqs : nat;
               cl : bool; cb : bool; ow : bool; lp : bool; stk : list frame; log : list note }.

Definition upd {A} (f : nat -> A) (i : nat) (x : A) : nat -> A := fun j => if j =? i then x else f j.

Definition set_hs v s := {| hs := v; nh := nh s; cs := cs s; nc := nc s; az := az s; na := na s; nr := nr s; pool := pool s; gc := gc s; gv := gv s; pend := pend s; reqs := reqs s; cl := cl s; cb := cb s; ow := ow s; lp := lp s; stk := stk s; log := log s |}.
Definition set_nh v s := {| hs := hs s; nh := v; cs := cs s; nc := nc s; az := az s; na := na s; nr := nr s; pool := pool s; gc := gc s; gv := gv s; pend := pend s; reqs := reqs s; cl := cl s; cb := cb s; ow := ow s; lp := lp s; stk := stk s; log := log s |}.
Definition set_cs v s := {| hs := hs s; nh := nh s; cs := v; nc := nc s; az := az s; na := na s; nr := nr s; pool := pool s; gc := gc s; gv := gv s; pend := pend s; reqs := reqs s; cl := cl s; cb := cb s; ow := ow s; lp := lp s; stk := stk s; log := log s |}.
Definition set_nc v s := {| hs := hs s; nh := nh s; cs := cs s; nc := v; az := az s; na := na s; nr := nr s; pool := pool s; gc := gc s; gv := gv s; pend := pend s; reqs := reqs s; cl := cl s; cb := cb s; ow := ow s; lp := lp s; stk := stk s; log := log s |}.
Definition set_az v s := {| hs := hs s; nh := nh s; cs := cs s; nc := nc s; az := v; na := na s; nr := nr s; pool := pool s; gc := gc s; gv := gv s; pend := pend s; reqs := reqs s; cl := cl s; cb := cb s; ow := ow s; lp := lp s; stk := stk s; log := log s |}.
Definition set_na v s := {| hs := hs s; nh := nh s; cs := cs s; nc := nc s; az := az s; na := v; nr := nr s; pool := pool s; gc := gc s; gv := gv s; pend := pend s; reqs := reqs s; cl := cl s; cb := cb s; ow := ow s; lp := lp s; stk := stk s; log := log s |}.
Definition set_nr v s := {| hs := hs s; nh := nh s; cs := cs s; nc := nc s; az := az s; na := na s; nr := v; pool := pool s; gc := gc s; gv := gv s; pend := pend s; reqs := reqs s; cl := cl s; cb := cb s; ow := ow s; lp := lp s; stk := stk s; log := log s |}.
Definition set_pool v s := {| hs := hs s; nh := nh s; cs := cs s; nc := nc s; az := az s; na := na s; nr := nr s; pool := v; gc := gc s; gv := gv s; pend := pend s; reqs := reqs s; cl := cl s; cb := cb s; ow := ow s; lp := lp s; stk := stk s; log := log s |}.
Definition set_gc v s := {| hs := hs s; nh := nh s; cs := cs s; nc := nc s; az := az s; na := na s; nr := nr s; pool := pool s; gc := v; gv := gv s; pend := pend s; reqs := reqs s; cl := cl s; cb := cb s; ow := ow s; lp := lp s; stk := stk s; log := log s |}.
Definition set_gv v s := {| hs := hs s; nh := nh s; cs := cs s; nc := nc s; az := az s; na := na s; nr := nr s; pool := pool s; gc := gc s; gv := v; pend := pend s; reqs := reqs s; cl := cl s; cb := cb s; ow := ow s; lp := lp s; stk := stk s; log := log s |}.
Definition set_pend v n s := {| hs := hs s; nh := nh s; cs := cs s; nc := nc s; az := az s; na := na s; nr := nr s; pool := pool s; gc := gc s; gv := gv s; pend := v; reqs := n; cl := cl s; cb := cb s; ow := ow s; lp := lp s; stk := stk s; log := log s |}.
Definition set_cl v s := {| hs := hs s; nh := nh s; cs := cs s; nc := nc s; az := az s; na := na s; nr := nr s; pool := pool s; gc := gc s; gv := gv s; pend := pend s; reqs := reqs s; cl := v; cb := cb s; ow := ow s; lp := lp s; stk := stk s; log := log s |}.
Definition set_cb v s := {| hs := hs s; nh := nh s; cs := cs s; nc := nc s; az := az s; na := na s; nr := nr s; pool := pool s; gc := gc s; gv := gv s; pend := pend s; reqs := reqs s; cl := cl s; cb := v; ow := ow s; lp := lp s; stk := stk s; log := log s |}.
Definition set_loop v w s := {| hs := hs s; nh := nh s; cs := cs s; nc := nc s; az := az s; na := na s; nr := nr s; pool := pool s; gc := gc s; gv := gv s; pend := pend s; reqs := reqs s; cl := cl s; cb := cb s; ow := w; lp := v; stk := stk s; log := log s |}.
Definition set_stk v s := {| hs := hs s; nh := nh s; cs := cs s; nc := nc s; az := az s; na := na s; nr := nr s; pool := pool s; gc := gc s; gv := gv s; pend := pend s; reqs := reqs s; cl := cl s; cb := cb s; ow := ow s; lp := lp s; stk := v; log := log s |}.
Definition emit n s := {| hs := hs s; nh := nh s; cs := cs s; nc := nc s; az := az s; na := na s; nr := nr s; pool := pool s; gc := gc s; gv := gv s; pend := pend s; reqs := reqs s; cl := cl s; cb := cb s; ow := ow s; lp := lp s; stk := stk s; log := log s ++ [n] |}.

Definition on_h h (f : hnd -> hnd) s := set_hs (upd (hs s) h (f (hs s h))) s.
Definition on_c c (f : con -> con) s := set_cs (upd (cs s) c (f (cs s c))) s.

Definition h_state v (x : hnd) := {| h_st := v; h_data := h_data x; h_use := h_use x; h_fd := h_fd x; h_own := h_own x; h_pipe := h_pipe x |}.
Definition h_bind v (x : hnd) := {| h_st := h_st x; h_data := v; h_use := h_use x; h_fd := h_fd x; h_own := h_own x; h_pipe := h_pipe x |}.
Definition h_watch v (x : hnd) := {| h_st := h_st x; h_data := h_data x; h_use := v; h_fd := h_fd x; h_own := h_own x; h_pipe := h_pipe x |}.
Definition h_file v (x : hnd) := {| h_st := h_st x; h_data := h_data x; h_use := h_use x; h_fd := v; h_own := h_own x; h_pipe := h_pipe x |}.

Definition c_live v (x : con) := {| k_live := v; k_h := k_h x; k_fd := k_fd x; k_st := k_st x; k_wr := k_wr x; k_cl := k_cl x; k_disc := k_disc x; k_q := k_q x; k_fly := k_fly x |}.
Definition c_st v (x : con) := {| k_live := k_live x; k_h := k_h x; k_fd := k_fd x; k_st := v; k_wr := k_wr x; k_cl := k_cl x; k_disc := k_disc x; k_q := k_q x; k_fly := k_fly x |}.
Definition c_closing (x : con) := {| k_live := k_live x; k_h := k_h x; k_fd := k_fd x; k_st := k_st x; k_wr := k_wr x; k_cl := true; k_disc := k_disc x; k_q := k_q x; k_fly := k_fly x |}.
Definition c_disc v (x : con) := {| k_live := k_live x; k_h := k_h x; k_fd := k_fd x; k_st := k_st x; k_wr := k_wr x; k_cl := k_cl x; k_disc := v; k_q := k_q x; k_fly := k_fly x |}.
Definition c_wr v q fly (x : con) := {| k_live := k_live x; k_h := k_h x; k_fd := k_fd x; k_st := k_st x; k_wr := v; k_cl := k_cl x; k_disc := k_disc x; k_q := q; k_fly := fly |}.

Definition st_eqb (a b : status) : bool :=
  match a, b with Connected, Connected | Disconnecting, Disconnecting | Disconnected, Disconnected => true | _, _ => false end.
Definition is_open (x : hnd) : bool := match h_st x with HOpen => true | _ => false end.
Definition pnd_eqb (p q : pnd) : bool :=
  match p, q with PConn a, PConn b | PDns a, PDns b | PWrite a, PWrite b => a =? b | _, _ => false end.
Definition has (p : pnd) s : bool := existsb (pnd_eqb p) (pend s).
(** The first occurrence only. *)
Fixpoint drop (p : pnd) (l : list pnd) : list pnd :=
  match l with [] => [] | q :: l => if pnd_eqb p q then l else q :: drop p l end.

Definition find_pool (f : N) s : option nat := option_map snd (find (fun e => (fst e =? f)%N) (pool s)).
Definition find_gc (c : nat) s : option nat := option_map snd (find (fun e => fst e =? c) (gc s)).

(** * Outcomes *)
(** A failed assertion of the code; uv_close on a handle already closing (libuv aborts); access
    to released memory; a handle released before libuv is done with it; an invalidated
    iterator; uv_run without a loop. *)
Inductive crash := XAssert | XClose | XDead | XFree | XIter | XLoop.
(** [Aborted]: the deliberate abort() of [io_stream_close]. *)
Inductive res := Go (s : st) | Crash (x : crash) | Aborted.
Definition bind (r : res) (f : st -> res) : res := match r with Go s => f s | x => x end.
Notation "'do' x <- a ; b" := (bind a (fun x => b)) (at level 200, x name, a at level 100, b at level 200).

Definition uv_close (h : nat) (w : closer) s : res :=
  if is_open (hs s h) then Go (on_h h (h_state (HClosing w)) s) else Crash XClose.

(** The constructor and the destructor of [io_stream_flag_guard] on IN_CALLBACK (139-160). *)
Definition guard s : st * bool := if cb s then (s, false) else (set_cb true s, true).
Definition unguard (g : bool) s : st := if g then set_cb false s else s.

(** ATBUS_CHANNEL_REQ_END (libatbus_channel_types.h 208), after libuv has completed [p]. *)
Definition req_end (p : pnd) s : res := if reqs s =? 0 then Crash XAssert else Go (set_pend (drop p (pend s)) (pred (reqs s)) s).
Definition req_start (p : pnd) s : st := set_pend (p :: pend s) (S (reqs s)) s.

(** [io_stream_make_stream_ptr] 799-806 and uv_tcp_init / uv_pipe_init. *)
Definition new_handle (pipe : bool) s : st * nat :=
  (set_nh (S (nh s)) (set_hs (upd (hs s) (nh s) {| h_st := HOpen; h_data := DNull; h_use := UNone; h_fd := None; h_own := ow s; h_pipe := pipe |}) s), nh s).

(** [io_stream_make_connection] 740-787 for [fd] from uv_fileno, together with the fields its
    callers set afterwards; [conn_pool[fd] = ret] replaces an entry with the same key.
    uv_read_start fails on a listening handle. *)
Definition make_conn (h : nat) (fd : N) (listen : bool) s : st * nat :=
  let c := nc s in
  let s := set_cs (upd (cs s) c {| k_live := true; k_h := h; k_fd := fd; k_st := Connected; k_wr := false; k_cl := false; k_disc := None; k_q := 0; k_fly := 0 |}) s in
  let s := on_h h (fun x => h_watch (if listen then UListen else URead) (h_file (Some fd) (h_bind (DConn c) x))) s in
  (set_pool ((fd, c) :: filter (fun e => negb (fst e =? fd)%N) (pool s)) (set_nc (S c) s), c).

(** [io_stream_shutdown_ev_handle] for a connection 696-717; [rh]: the insertion invalidates
    iterators. *)
Definition shut_conn (rh : bool) (c : nat) s : res :=
  let k := cs s c in
  match h_data (hs s (k_h k)), find_pool (k_fd k) s with
  | DConn c', Some v =>
      if c' =? c then
        let s := set_gc ((c, v) :: filter (fun e => negb (fst e =? c)) (gc s)) s in
        let s := set_pool (filter (fun e => negb (fst e =? k_fd k)%N) (pool s)) s in
        let s := if rh then set_gv (S (gv s)) s else s in
        uv_close (k_h k) CConn s
      else Crash XAssert
  | _, _ => Crash XAssert
  end.
(** The same for [io_stream_connect_async_data] 720-728 ... *)
Definition shut_async (a : nat) s : res :=
  match a_kind (az s a) with
  | AStream h _ =>
      match h_data (hs s h) with
      | DNull => uv_close h CAsync (on_h h (h_bind (DAsync a)) s)
      | DAsync b => if b =? a then uv_close h CAsync s else Crash XAssert
      | _ => Crash XAssert
      end
  | AName _ => Crash XDead
  end.
(** ... and for a bare handle 731-738. *)
Definition shut_ptr (h : nat) s : res :=
  match h_data (hs s h) with
  | DNull => uv_close h CPtr (on_h h (h_bind DPtr) s)
  | _ => Crash XAssert
  end.
(** Release of a handle: libuv may use it until its close callback. *)
Definition free_handle (h : nat) s : res :=
  match h_st (hs s h) with HClosed => Go (on_h h (h_state HFreed) s) | _ => Crash XFree end.
Definition free_async (a : nat) s : st := set_az (upd (az s) a {| a_live := false; a_req := a_req (az s a); a_kind := a_kind (az s a) |}) s.

(** [io_stream_disconnect_run] 1488-1502. *)
Definition disc_run (rh : bool) (c : nat) s : res :=
  if k_cl (cs s c) then Go s else shut_conn rh c (on_c c c_closing s).
(** [io_stream_disconnect_inner] 1504-1525. *)
Definition disc_inner (rh : bool) (c : nat) (d : option N) (force : bool) s : res :=
  let s := emit (NAsk c d) (on_c c (c_disc d) s) in
  if negb (st_eqb (k_st (cs s c)) Connected) then Go s else
  let s := on_c c (c_st Disconnecting) s in
  if negb force && k_wr (cs s c) then Go s else disc_run rh c s.

(** The part of [io_stream_try_write] 1623-1757 after its tests (WRITING, empty, CLOSING):
    [m] messages are merged into the block written; uv_write accepts it or not. *)
Record wro := { o_merge : nat; o_write : bool }.
Definition start_write (o : wro) (c : nat) s : st * bool :=
  let k := cs s c in
  let m := Nat.min (S (o_merge o)) (k_q k) in
  if o_write o then (req_start (PWrite c) (on_c c (c_wr true (k_q k - m) m) s), true) else (s, false).
(** [io_stream_send] 1759-1803: what the caller passes and what [push_back] says. *)
Inductive sent := SBig | SFull | SFlush | SMsg.
Definition send (o : wro) (c : nat) (m : sent) s : st :=
  match m with
  | SBig => emit (NSent c E_INVALID_SIZE) s
  | _ =>
    if negb (st_eqb (k_st (cs s c)) Connected) then emit (NSent c E_CLOSING) s else
    match m with
    | SFull => emit (NSent c E_BUFF_LIMIT) s
    | _ =>
      let s := match m with SMsg => on_c c (fun k => c_wr (k_wr k) (S (k_q k)) (k_fly k) k) s | _ => s end in
      if k_wr (cs s c) || (k_q (cs s c) =? 0) then emit (NSent c 0%Z) s else
      let (s, ok) := start_write o c s in emit (NSent c (if ok then 0 else E_WRITE_FAILED)%Z) s
    end
  end.

(** * Callbacks *)
(** [io_stream_channel_callback] 164-192: the callback of the channel, then the specific one. *)
Definition both (f : bool -> note) : list note := [f true; f false].
Fixpoint times (n : nat) (l : list note) : list note := match n with O => [] | S n => l ++ times n l end.

(** [conn_gc_pool.erase(iter)] 663: releases the connection the entry holds, and its handle. *)
Definition release (c v : nat) s : res :=
  if negb (v =? gv s) then Crash XIter else
  match find_gc c s with
  | Some d => free_handle (k_h (cs s d)) (set_gc (filter (fun e => negb (fst e =? c)) (gc s)) (on_c d (c_live false) s))
  | None => Crash XIter
  end.

(** What a function does after its callbacks; [o] is used if it starts a write. *)
Definition after_write (c : nat) (g : bool) s : res :=
  (* 1612-1620: close when disconnecting and nothing is being written *)
  let fin := if st_eqb (k_st (cs s c)) Disconnecting && negb (k_wr (cs s c)) then disc_run false c s else Go s in
  do s <- fin; Go (unguard g s).

(** [call l k]: make the callbacks [l], then [k]. *)
Definition call (l : list note) (k : kont) s : option st :=
  match l with [] => None | n :: l => Some (emit n (set_stk (Frame l k :: stk s) s)) end.

Definition run_kont (o : wro) (k : kont) s : res :=
  match k with
  | JRet r => Go (emit (NRet r 0%Z) s)                                            (* 1131, 1190 *)
  | JName a g => Go (unguard g (free_async a s))                                  (* 1050, 1343 *)
  | JConn a true g => Go (unguard g (free_async a s))                             (* 1280 *)
  | JConn a false g => do s <- shut_async a s; Go (unguard g s)                   (* 1278 *)
  | JAcc None g => Go (unguard g s)
  | JAcc (Some h) g => do s <- shut_ptr h s; Go (unguard g s)                     (* 896, 974 *)
  | JGone c v g =>                                                                (* 658-663 *)
      if negb (k_live (cs s c)) then Crash XDead else
      match k_disc (cs s c) with
      | Some d => Go (emit (NCb c d) (set_stk (Frame [] (JErase c v g) :: stk s) s))
      | None => do s <- release c v s; Go (unguard g s)
      end
  | JErase c v g => do s <- release c v s; Go (unguard g s)                       (* 663 *)
  | JRead c free g =>                                                             (* 555-564 *)
      if free then do s <- disc_inner false c None false s; Go (unguard g s) else Go (unguard g s)
  | JFail c force g => do s <- disc_inner false c None force s; Go (unguard g s)  (* 427 *)
  | JWrit c g =>                                                                  (* 1607-1620 *)
      if negb (k_live (cs s c)) then Crash XDead else
      let s := on_c c (fun k => c_wr false (k_q k) 0 k) s in
      let k := cs s c in
      if k_q k =? 0 then after_write c g s else
      if k_cl k then                                                              (* 1641-1672 *)
        match call (times (k_q k) (both (fun f => NWrit f c))) (JCanc c g) s with Some s => Go s | None => Go s end
      else let (s, _) := start_write o c s in after_write c g s
  | JCanc c g =>
      if negb (k_live (cs s c)) then Crash XDead else
      after_write c g (on_c c (fun k => c_wr (k_wr k) 0 (k_fly k) k) s)
  end.

(** Return from a callback. *)
Definition resume (o : wro) s : option res :=
  match stk s with
  | Frame (n :: l) k :: t => Some (Go (emit n (set_stk (Frame l k :: t) s)))
  | Frame [] k :: t => Some (run_kont o k (set_stk t s))
  | _ => None
  end.
(** Callbacks [l], possibly none, then [k]. *)
Definition calls (o : wro) (l : list note) (k : kont) s : res :=
  match call l k s with Some s => Go s | None => run_kont o k s end.

(** * Listening and connecting *)
(** Address: ipv4/ipv6 with the host parsed or not, unix socket with a path that fits or not,
    name, anything else. *)
Inductive target := TTcp (ip : option N) | TUnix (long : bool) | TName | TOther.
(** Answers of the system: malloc of the loop, bind, listen, the start of a connect or of a
    name resolution, and uv_fileno. *)
Record sys := { o_mem : bool; o_bind : bool; o_listen : bool; o_start : bool; o_file : option N }.

(** uv_ip4_addr and uv_ip6_addr fill in the family, the port and the address zero before they
    parse; their result is ignored (1091, 1105, 1394, 1397). *)
Definition addr_of (ip : option N) : N := match ip with Some a => a | None => 0%N end.

(** The kernel gives a new file a number no open file has. *)
Definition fd_free (f : N) s : bool :=
  forallb (fun h => negb (is_open (hs s h) && match h_fd (hs s h) with Some g => (g =? f)%N | None => false end)) (seq 0 (nh s)).
Definition fd_fresh (f : option N) s : bool := match f with Some f => fd_free f s | None => true end.

(** [io_stream_get_loop] 222-236. *)
Definition get_loop (o : sys) s : option st :=
  if lp s then Some s else if o_mem o then Some (set_loop true true s) else None.

(** Listening on a handle: 1076-1139 (tcp) and 1141-1198 (unix). *)
Definition listen_on (pipe : bool) (o : sys) s : res * (nat + Z) :=
  let (s, h) := new_handle pipe s in
  if negb (o_bind o) then (shut_ptr h s, inr (if pipe then E_PIPE_BIND else E_SOCK_BIND)) else
  if negb (o_listen o) then (shut_ptr h s, inr (if pipe then E_PIPE_LISTEN else E_SOCK_LISTEN)) else
  match o_file o with
  | None => (shut_ptr h s, inr E_MALLOC)
  | Some f => let (s, c) := make_conn h f true s in (Go s, inl c)
  end.
(** Connecting a handle: 1369-1420 (tcp) and 1422-1461 (unix; uv_pipe_connect reports every
    error in the callback). *)
Definition connect_on (pipe : bool) (r : nat) (o : sys) s : res * Z :=
  let (s, h) := new_handle pipe s in
  let a := na s in
  let s := set_na (S a) (set_az (upd (az s) a {| a_live := true; a_req := r; a_kind := AStream h pipe |}) s) in
  if pipe || o_start o then (Go (req_start (PConn a) s), 0%Z) else (shut_async a s, E_SOCK_CONNECT).
(** Starting a name resolution: 1199-1217, 1463-1482. *)
Definition resolve (listen : bool) (r : nat) (o : sys) s : st * Z :=
  if o_start o then
    let a := na s in
    (req_start (PDns a) (set_na (S a) (set_az (upd (az s) a {| a_live := true; a_req := r; a_kind := AName listen |}) s)), 0%Z)
  else (s, E_DNS).

Definition ret (r : nat) (z : Z) (x : res) : res := do s <- x; Go (emit (NRet r z) s).

(** [io_stream_listen] 1061-1221 called by the user. *)
Definition listen (t : target) (o : sys) s : res :=
  let r := nr s in
  let s := set_nr (S r) s in
  if cl s then Go (emit (NRet r E_CHANNEL_CLOSING) s) else
  match get_loop o s with
  | None => Go (emit (NRet r E_MALLOC) s)
  | Some s =>
    let go pipe s :=
      match listen_on pipe o s with
      | (x, inr z) => ret r z x
      | (x, inl c) => do s <- x; calls {| o_merge := 0; o_write := false |} (both (fun f => NConn f r 0%Z (Some c))) (JRet r) s
      end in
    match t with
    | TTcp ip => go false (emit (NAddr r (addr_of ip)) s)
    | TUnix long => if long then Go (emit (NRet r E_PIPE_ADDR) s) else go true s
    | TName => let (s, z) := resolve true r o s in Go (emit (NRet r z) s)
    | TOther => Go (emit (NRet r E_NOT_SUPPORT) s)
    end
  end.

(** [io_stream_connect] 1353-1486 called by the user. *)
Definition connect (t : target) (o : sys) s : res :=
  let r := nr s in
  let s := set_nr (S r) s in
  if cl s then Go (emit (NRet r E_CHANNEL_CLOSING) s) else
  match get_loop o s with
  | None => Go (emit (NRet r E_MALLOC) s)
  | Some s =>
    match t with
    | TTcp ip => let (x, z) := connect_on false r o (emit (NAddr r (addr_of ip)) s) in ret r z x
    | TUnix _ => let (x, z) := connect_on true r o s in ret r z x
    | TName => let (s, z) := resolve false r o s in Go (emit (NRet r z) s)
    | TOther => Go (emit (NRet r E_NOT_SUPPORT) s)
    end
  end.

(** * Callbacks of libuv *)
Definition no_write : wro := {| o_merge := 0; o_write := false |}.

(** [io_stream_all_connected_cb] 1223-1282: [ok] is status = 0. *)
Definition on_connected (a : nat) (ok : bool) (f : option N) s : res :=
  if negb (a_live (az s a)) then Crash XDead else
  match a_kind (az s a) with
  | AName _ => Crash XDead
  | AStream h pipe =>
    do s <- req_end (PConn a) s;
    let (s, g) := guard s in
    let fail z := calls no_write (both (fun b => NConn b (a_req (az s a)) z None)) (JConn a false g) s in
    if negb ok then fail (if pipe then E_PIPE_CONNECT else E_SOCK_CONNECT) else
    if cl s then fail E_CHANNEL_CLOSING else
    match f with
    | None => fail E_MALLOC
    | Some f => let (s, c) := make_conn h f false s in
                calls no_write (both (fun b => NConn b (a_req (az s a)) 0%Z (Some c))) (JConn a true g) s
    end
  end.

(** [io_stream_dns_connection_cb] 991-1058 and [io_stream_dns_connect_cb] 1285-1351: [ip] is
    the first address found, if the resolution succeeded with an IPv4 or IPv6 address. *)
Definition on_resolved (a : nat) (ip : option N) (o : sys) s : res :=
  if negb (a_live (az s a)) then Crash XDead else
  match a_kind (az s a) with
  | AStream _ _ => Crash XDead
  | AName lis =>
    let r := a_req (az s a) in
    do s <- req_end (PDns a) s;
    let (s, g) := guard s in
    let fail s := calls no_write (both (fun b => NConn b r E_DNS None)) (JName a g) s in
    match ip with
    | None => fail s
    | Some ip =>
      if cl s then fail s else
      match get_loop o s with
      | None => fail s
      | Some s =>
        let s := emit (NAddr r ip) s in
        if lis then
          match listen_on false o s with
          | (x, inr _) => do s <- x; fail s
          | (x, inl c) => do s <- x; calls no_write (both (fun b => NConn b r 0%Z (Some c))) (JName a g) s
          end
        else
          let (x, z) := connect_on false r o s in
          do s <- x; if (z =? 0)%Z then run_kont no_write (JName a g) s else fail s
      end
    end
  end.

(** [io_stream_tcp_connection_cb] 849-900 with [io_stream_tcp_connection_common] 809-846, and
    [io_stream_pipe_connection_cb] 903-978: [ok] is status = 0, [acc] is uv_accept = 0. *)
Definition on_accept (h : nat) (ok acc : bool) (f : option N) s : res :=
  match h_data (hs s h) with
  | DConn l =>
    if negb (k_live (cs s l)) then Crash XDead else
    let pipe := h_pipe (hs s h) in
    let (s, g) := guard s in
    let bad := if pipe then E_PIPE_CONNECT else E_SOCK_CONNECT in
    let fail z rh s := calls no_write (both (fun b => NAcc b l z None)) (JAcc rh g) s in
    if negb ok then fail (if pipe then bad else if cl s then E_CHANNEL_CLOSING else bad) None s else
    let (s, n) := new_handle pipe s in
    if negb acc then fail (if pipe then bad else if cl s then E_CHANNEL_CLOSING else bad) (Some n) s else
    if cl s then fail E_CHANNEL_CLOSING (Some n) s else
    match f with
    | None => fail bad (Some n) s
    | Some f => let (s, c) := make_conn n f false s in
                calls no_write (both (fun b => NAcc b l 0%Z (Some c))) (JAcc None g) s
    end
  | _ => Crash XAssert
  end.

(** Outcome of a read, [io_stream_on_recv_read_fn] 392-565: nothing (again), with the limit on
    such reads exceeded or not; an error, a reset by the peer or another; data giving [n]
    messages and, if [free], more errors than the configuration allows. *)
Inductive rd := RAgain (over : bool) | RFail (reset : bool) | RData (n : nat) (free : bool).
Definition on_read (h : nat) (x : rd) s : res :=
  match h_data (hs s h) with
  | DConn c =>
    if negb (k_live (cs s c)) then Crash XDead else
    let (s, g) := guard s in
    if negb (st_eqb (k_st (cs s c)) Connected) then Go (unguard g s) else
    match x with
    | RAgain over => if over then do s <- disc_inner false c None false s; Go (unguard g s) else Go (unguard g s)
    | RFail reset => calls no_write (both (fun b => NRecv b c)) (JFail c reset g) s
    | RData n free => calls no_write (times n (both (fun b => NRecv b c))) (JRead c free g) s
    end
  | _ => Crash XAssert
  end.

(** [io_stream_on_written_fn] 1544-1621. *)
Definition on_written (c : nat) (o : wro) s : res :=
  if negb (k_live (cs s c)) then Crash XDead else
  do s <- req_end (PWrite c) s;
  let (s, g) := guard s in
  calls o (times (k_fly (cs s c)) (both (fun b => NWrit b c))) (JWrit c g) s.

(** The close callbacks: [io_stream_connection_on_close] 636-664,
    [io_stream_async_data_on_close] 667-679, [io_stream_shared_ptr_on_close] 681-693. *)
Definition on_closed (h : nat) (w : closer) s : res :=
  let s := on_h h (h_state HClosed) s in
  match w, h_data (hs s h) with
  | CConn, DNull => Go s
  | CConn, DConn c =>
      if negb (k_live (cs s c)) then Crash XDead else
      let (s, g) := guard s in
      match find_gc c s with
      | None => Crash XAssert
      | Some v => calls no_write (both (fun b => NDisc b v)) (JGone c (gv s) g) (on_c v (c_st Disconnected) s)
      end
  | CAsync, DAsync a =>
      match a_kind (az s a) with
      | AStream h' _ =>
          if negb (a_live (az s a)) then Crash XDead else
          if h' =? h then free_handle h (free_async a s) else Crash XAssert
      | AName _ => Crash XAssert
      end
  | CPtr, DPtr => free_handle h s
  | _, _ => Crash XAssert
  end.

(** * Closing the channel *)
Fixpoint disc_all (l : list nat) s : res :=
  match l with [] => Go s | c :: l => do s <- disc_inner false c None false s; disc_all l s end.
(** [io_stream_close] 263-323, up to its first uv_run. *)
Definition close s : res :=
  let g := negb (cl s) in
  let s := set_cl true s in
  if cb s then Aborted else
  do s <- disc_all (map snd (pool s)) s;
  Go (set_stk (Wait (if ow s && lp s then WOwn else WPool) g :: stk s) s).

(** No handle of the channel's own loop is left (uv_run returns 0 and uv_loop_close succeeds
    then); requests of the loop keep it alive as well. *)
Definition own_done s : bool :=
  forallb (fun h => match h_st (hs s h) with HOpen | HClosing _ => negb (h_own (hs s h)) | _ => true end) (seq 0 (nh s)) &&
  match pend s with [] => true | _ => false end.
Definition is_nil {A} (l : list A) : bool := match l with [] => true | _ => false end.
Definition finish (g : bool) s : st := emit NClosed ((if g then set_cl false else fun s => s) (set_loop false (ow s) s)).
(** The loops around uv_run, 294-316: what happens when their condition is looked at. *)
Definition wake s : option res :=
  match stk s with
  | Wait WOwn g :: t => if own_done s then Some (Go (finish g (set_stk t s))) else None
  | Wait WPool g :: t =>
      if is_nil (pool s) && is_nil (gc s) then Some (Go (set_stk (Wait WReq g :: t) s))
      else if lp s then None else Some (Crash XLoop)
  | Wait WReq g :: t =>
      if reqs s =? 0 then Some (Go (finish g (set_stk t s)))
      else if lp s then None else Some (Crash XLoop)
  | _ => None
  end.

(** * Events *)
Inductive ev :=
(* the user *)
| AInit (shared : bool)
| AListen (t : target) (o : sys)
| AConnect (t : target) (o : sys)
| ADisc (c : nat) (d : option N) (rh : bool)
| ADiscFd (f : N) (d : option N) (rh : bool)
| ASend (c : nat) (m : sent) (o : wro)
| AClose
| AReturn (o : wro)
(* libuv *)
| LConn (a : nat) (ok : bool) (f : option N)
| LName (a : nat) (ip : option N) (o : sys)
| LAccept (h : nat) (ok acc : bool) (f : option N)
| LRead (h : nat) (x : rd)
| LWrit (c : nat) (o : wro)
| LClosed (h : nat)
| LWake.

(** Frames of functions called by libuv. *)
Definition is_uv (f : frame) : bool := match f with Frame _ (JRet _) => false | Frame _ _ => true | Wait _ _ => false end.
Definition in_loop s : bool := existsb is_uv (stk s).
Definition user_turn s : bool := match stk s with Wait _ _ :: _ => false | _ => true end.
(** Requests of a handle complete before its close callback (uv__stream_destroy). *)
Definition flushed (h : nat) s : bool :=
  forallb (fun p => match p with
    | PConn a => match a_kind (az s a) with AStream h' _ => negb (h' =? h) | AName _ => true end
    | PDns _ => true
    | PWrite c => negb (k_h (cs s c) =? h) end) (pend s).

Definition step s (e : ev) : option res :=
  match e with
  | AInit shared =>
      if negb (lp s) && is_nil (stk s) then Some (Go (set_cl false (set_cb false (set_loop shared false s)))) else None
  | AListen t o => if user_turn s && fd_fresh (o_file o) s then Some (listen t o s) else None
  | AConnect t o => if user_turn s then Some (connect t o s) else None
  | ADisc c d rh => if user_turn s && k_live (cs s c) then Some (disc_inner rh c d false s) else None
  | ADiscFd f d rh =>
      if user_turn s then match find_pool f s with Some c => Some (disc_inner rh c d false s) | None => Some (Go s) end else None
  | ASend c m o => if user_turn s && k_live (cs s c) then Some (Go (send o c m s)) else None
  | AClose => if user_turn s then Some (close s) else None
  | AReturn o => resume o s
  | LConn a ok f => if negb (in_loop s) && has (PConn a) s && fd_fresh f s then Some (on_connected a ok f s) else None
  | LName a ip o => if negb (in_loop s) && has (PDns a) s && fd_fresh (o_file o) s then Some (on_resolved a ip o s) else None
  | LAccept h ok acc f =>
      if negb (in_loop s) && is_open (hs s h) && match h_use (hs s h) with UListen => true | _ => false end && fd_fresh f s
      then Some (on_accept h ok acc f s) else None
  | LRead h x =>
      if negb (in_loop s) && is_open (hs s h) && match h_use (hs s h) with URead => true | _ => false end
      then Some (on_read h x s) else None
  | LWrit c o => if negb (in_loop s) && has (PWrite c) s then Some (on_written c o s) else None
  | LClosed h =>
      match h_st (hs s h) with
      | HClosing w => if negb (in_loop s) && flushed h s then Some (on_closed h w s) else None
      | _ => None
      end
  | LWake => wake s
  end.

(** A channel before [io_stream_init]. *)
Definition st0 : st :=
  {| hs := fun _ => {| h_st := HFreed; h_data := DNull; h_use := UNone; h_fd := None; h_own := false; h_pipe := false |}; nh := 0;
     cs := fun _ => {| k_live := false; k_h := 0; k_fd := 0; k_st := Disconnected; k_wr := false; k_cl := false; k_disc := None; k_q := 0; k_fly := 0 |}; nc := 0;
     az := fun _ => {| a_live := false; a_req := 0; a_kind := AName false |}; na := 0; nr := 0;
     pool := []; gc := []; gv := 0; pend := []; reqs := 0; cl := false; cb := false; ow := false; lp := false; stk := []; log := [] |}.

(** A whole history: [None] if some event is impossible where it stands. *)
Fixpoint run (es : list ev) s : option res :=
  match es with
  | [] => Some (Go s)
  | e :: es => match step s e with
               | Some (Go s) => run es s
               | Some x => Some x
               | None => None
               end
  end.
