(** The sending side of the stream channel when [send_buffer_number] is not 0
    (atbus_node.cpp 2371): [write_buffers] is then a fixed area used as a ring of blocks
    (static mode of the buffer manager, Buffer.v), set up by [io_stream_make_connection]
    772-775.  Same code as in IoWrite.v (channel_io_stream.cpp 1488-1804), over the other
    manager; effects, events and simplifications are those of IoWrite.v.  The allocator is
    not asked after the area was made, so the allocator's answers in the events are ignored;
    an area that cannot be allocated leaves the manager in dynamic mode (IoWrite.v). *)
From Verif Require Import Base BufferSpec Buffer Vint Mem MemSpec IoWrite.
Local Open Scope N_scope.

(** [write_buffers], the flags EN_CF_WRITING and EN_CF_CLOSING, [status]. *)
Record vx := { v_q : smgr; v_writing : bool; v_closing : bool; v_st : wstat }.
Definition vset_q (s : vx) (q : smgr) : vx := {| v_q := q; v_writing := v_writing s; v_closing := v_closing s; v_st := v_st s |}.
Definition vset_writing (s : vx) (b : bool) : vx := {| v_q := v_q s; v_writing := b; v_closing := v_closing s; v_st := v_st s |}.
Definition vset_closing (s : vx) : vx := {| v_q := v_q s; v_writing := v_writing s; v_closing := true; v_st := v_st s |}.
Definition vset_st (s : vx) (t : wstat) : vx := {| v_q := v_q s; v_writing := v_writing s; v_closing := v_closing s; v_st := t |}.

(** [set_mode(send_buffer_max_size, send_buffer_static)] 773-775, both not 0. *)
Definition v_init (max_size : N) (max_number : nat) : vx :=
  {| v_q := s_init max_size max_number; v_writing := false; v_closing := false; v_st := Connected |}.

(** The block returned by [front()] (buffer.cpp 218-220, 336-342): its address, [used_], and
    the [raw_size()] bytes at [raw_data()].  [None]: undefined; [Some None]: no block. *)
Record sblk := { k_at : N; k_used : N; k_raw : bytes }.
Definition s_front (m : smgr) : option (option sblk) :=
  let b := s_buf m in
  if static_empty b then Some None else
  let* a := sb_circ b (sb_head b) in
  let* h := read_hdr (sb_mem b) a in
  let* d := read_data (sb_mem b) (h_ptr h) (N.to_nat (h_size h)) in
  Some (Some {| k_at := a; k_used := h_used h; k_raw := d |}).
Definition k_size (k : sblk) : N := blen (k_raw k).
Definition k_body (k : sblk) : bytes := skipn (N.to_nat uvw) (k_raw k).

(** [pop_front(s, true)]; the code never looks at its result. *)
Definition v_pop (m : smgr) (s : N) : wres smgr :=
  match static_pop_front m s true with None => Crash | Some (_, m') => Ok m' end.
(** A push followed by the caller filling the block; a failed assertion is a crash. *)
Definition v_push (f : sbuf -> N -> option sres) (m : smgr) (d : bytes) : wres (Z * smgr) :=
  match s_push f m d with Some (c, m', true) => Ok (c, m') | _ => Crash end.

(** Number of entries of the index, more than there can be blocks: bounds the loops. *)
Definition room (m : smgr) : nat := sb_csz (s_buf m).

Section WriteS.
Variables (limit : N) (hash : bytes -> N).

(** 1640-1672: cancel everything that is queued. *)
Fixpoint v_cancel (fuel : nat) (m : smgr) : wres (smgr * list wout) :=
  match s_front m, fuel with
  | None, _ => Crash
  | Some None, _ => Ok (m, [])
  | _, O => Crash
  | Some (Some k), S f =>
      if k_size k <? uvw then Crash else
      match block_msgs (length (k_body k)) (k_body k) with
      | None => Crash
      | Some ms =>
          match v_pop m (k_size k) with
          | Crash => Crash
          | Ok m1 =>
              match v_cancel f m1 with
              | Crash => Crash
              | Ok (m', o) => Ok (m', map (fun p => ODone UV_ECANCELED E_CLOSING p) ms ++ o)
              end
          end
      end
  end.

(** 1682-1705: copy blocks to the thread's buffer, [acc] is its content, [prev] the address
    of the block copied last ([preview_bb]): merging stops where the ring wraps (1693). *)
Fixpoint v_merge_loop (fuel : nat) (m : smgr) (prev : option N) (avail : N) (acc : bytes) : wres (smgr * bytes) :=
  match s_front m, fuel with
  | None, _ => Crash
  | Some None, _ => Ok (m, acc)
  | _, O => Crash
  | Some (Some k), S f =>
      if (avail =? 0) || (avail <? k_size k) then Ok (m, acc) else
      if match prev with Some p => k_at k <? p | None => false end then Ok (m, acc) else
      if k_size k <? uvw then Crash else
      if merge_len <? blen (acc ++ k_body k) then Crash else
      match v_pop m (k_size k) with
      | Crash => Crash
      | Ok m1 => v_merge_loop f m1 (Some (k_at k)) (avail - (k_size k - uvw)) (acc ++ k_body k)
      end
  end.

(** 1679-1720: merge when more than one block is queued and the first one is small. *)
Definition v_merge (m : smgr) : wres smgr :=
  match s_front m with
  | None | Some None => Crash
  | Some (Some k) =>
      if (1 <? cost_number (s_lim m)) && (k_size k <=? small_size) then
        match v_merge_loop (room m) m None merge_len [] with
        | Crash => Crash
        | Ok (m1, acc) =>
            match v_push static_push_front m1 (repeat 0 (N.to_nat uvw) ++ acc) with
            | Crash => Crash
            | Ok (c, m2) => if (c =? SUCCESS)%Z then Ok m2 else Crash
            end
        end
      else Ok m
  end.

(** [io_stream_try_write] 1623-1757. *)
Fixpoint v_try (fuel : nat) (uv : Z) (s : vx) : wres (vx * Z * list wout) :=
  if v_writing s then Ok (s, SUCCESS, []) else
  if static_empty (s_buf (v_q s)) then Ok (s, SUCCESS, []) else
  if v_closing s then
    match v_cancel (room (v_q s)) (v_q s) with
    | Crash => Crash
    | Ok (m, o) => Ok (vset_q s m, SUCCESS, o)
    end
  else
    match v_merge (v_q s) with
    | Crash => Crash
    | Ok m =>
        match s_front m, fuel with
        | Some (Some k), S f =>
            if k_size k <=? uvw then
              match v_pop m (k_size k) with Crash => Crash | Ok m1 => v_try f uv (vset_q s m1) end
            else if (uv =? 0)%Z
            then Ok (vset_writing (vset_q s m) true, SUCCESS, [OWrite (handed ((k_size k - uvw) mod 2 ^ 32) (k_body k))])
            else Ok (vset_q s m, E_WRITE_FAILED, [])
        | _, _ => Crash
        end
    end.
Definition v_try_all (uv : Z) (s : vx) := v_try (S (room (v_q s))) uv s.

(** [io_stream_send] 1759-1804. *)
Definition v_send (s : vx) (p : bytes) (uv : Z) : wres (vx * list wout) :=
  if (0 <? limit) && (limit <? blen p) then Ok (s, [OSend p E_INVALID_SIZE]) else
  match v_st s with
  | Connected =>
      let go s :=
        match v_try_all uv s with
        | Crash => Crash
        | Ok (s', c, o) => Ok (s', o ++ [OSend p c])
        end in
      match p with
      | [] => go s
      | _ :: _ =>
          match v_push static_push_back (v_q s) (block_of hash p) with
          | Crash => Crash
          | Ok (c, m) => if (c <? 0)%Z then Ok (vset_q s m, [OSend p c]) else go (vset_q s m)
          end
      end
  | _ => Ok (s, [OSend p E_CLOSING])
  end.

(** [io_stream_disconnect_run] 1488-1503. *)
Definition v_disc_run (s : vx) : vx * list wout :=
  if v_closing s then (s, []) else (vset_closing s, [OClose]).

(** [io_stream_disconnect_inner] 1505-1525. *)
Definition v_disc (s : vx) (force : bool) : vx * list wout :=
  match v_st s with
  | Connected =>
      let s := vset_st s Disconnecting in
      if negb force && v_writing s then (s, []) else v_disc_run s
  | _ => (s, [])
  end.

(** What the callbacks of a completed write do, as in IoWrite.v. *)
Fixpoint v_acts (s : vx) (l : list act) : wres (vx * list wout) :=
  match l with
  | [] => Ok (s, [])
  | a :: r =>
      match match a with ASend p _ => v_send s p 0 | ADisc f => Ok (v_disc s f) end with
      | Crash => Crash
      | Ok (s1, o1) => match v_acts s1 r with Crash => Crash | Ok (s2, o2) => Ok (s2, o1 ++ o2) end
      end
  end.
Fixpoint v_callbacks (s : vx) (uv : Z) (ms : list bytes) (acts : list (list act)) : wres (vx * list wout) :=
  match ms with
  | [] => Ok (s, [])
  | p :: r =>
      match v_acts s (hd [] acts) with
      | Crash => Crash
      | Ok (s1, o1) =>
          match v_callbacks s1 uv r (tl acts) with
          | Crash => Crash
          | Ok (s2, o2) => Ok (s2, ODone uv SUCCESS p :: o1 ++ o2)
          end
      end
  end.

(** [io_stream_on_written_fn] 1544-1621: [front(data, nread, nwrite)] gives the bytes after
    [used_]; the code asserts that [used_] is 0 (1566). *)
Definition v_done (s : vx) (uv : Z) (acts : list (list act)) (uv' : Z) : wres (vx * list wout) :=
  match match s_front (v_q s) with
        | None => Crash
        | Some None => Ok (s, [])
        | Some (Some k) =>
            if negb (k_used k =? 0) then Crash else
            if k_size k =? 0 then match v_pop (v_q s) 0 with Crash => Crash | Ok m => Ok (vset_q s m, []) end else
            if k_size k <? uvw then Crash else
            match block_msgs (length (k_body k)) (k_body k) with
            | None => Crash
            | Some ms =>
                match v_callbacks s uv ms acts with
                | Crash => Crash
                | Ok (s1, o) => match v_pop (v_q s1) (k_size k) with Crash => Crash | Ok m => Ok (vset_q s1 m, o) end
                end
            end
        end with
  | Crash => Crash
  | Ok (s1, o1) =>
      match v_try_all uv' (vset_writing s1 false) with
      | Crash => Crash
      | Ok (s2, _, o2) =>
          let (s3, o3) := match v_st s2 with
                          | Disconnecting => if v_writing s2 then (s2, []) else v_disc_run s2
                          | _ => (s2, [])
                          end in
          Ok (s3, o1 ++ o2 ++ o3)
      end
  end.

(** The events of IoWrite.v. *)
Definition v_step (s : vx) (e : wev) : wres (vx * list wout) :=
  match e with
  | ESend p _ _ uv => v_send s p uv
  | EDone uv acts _ uv' => v_done s uv acts uv'
  | EDisc f => Ok (v_disc s f)
  | EClosed => Ok (vset_st s Disconnected, [OClosed])
  end.
Fixpoint v_run (s : vx) (es : list wev) : wres (vx * list wout) :=
  match es with
  | [] => Ok (s, [])
  | e :: r =>
      match v_step s e with
      | Crash => Crash
      | Ok (s1, o1) => match v_run s1 r with Crash => Crash | Ok (s2, o2) => Ok (s2, o1 ++ o2) end
      end
  end.
End WriteS.
