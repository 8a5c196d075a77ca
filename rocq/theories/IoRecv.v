(** Receiving side of the stream channel: src/channel_io_stream.cpp.  One connection with
    [recv_buffer_static] = 0 (the default, and what [node::get_iostream_conf] leaves): its
    [read_buffers] is a dynamic buffer manager (Buffer.v).

    Simplifications: receive callbacks are outputs, they do not call back into the channel;
    the counters are natural numbers without wrap-around; assertions are not modelled. *)
From Verif Require Import Base BufferSpec Buffer Vint Mem MemSpec.
Local Open Scope N_scope.

(** sizeof(read_head.buffer): libatbus_channel_types.h 137-140, ATBUS_MACRO_DATA_SMALL_SIZE. *)
Definition head_cap : N := 3072.

Definition E_BAD_DATA : Z := (-7)%Z.
Definition E_INVALID_SIZE : Z := (-8)%Z.
Definition E_READ_FAILED : Z := (-604)%Z.

(** Fields of [io_stream_conf] used here (libatbus_channel_types.h 147-166):
    recv_buffer_limit_size, recv_buffer_max_size and the three max_read_*_count. *)
Record rcfg := { c_limit : N; c_max : N; c_eagain : N; c_size : N; c_hash : N }.

(** [read_head] (its first [len] bytes), [read_buffers], whether [status] is CONNECTED, and
    the channel's counters read_net_eagain_count, read_check_block_size_failed_count,
    read_check_hash_failed_count (libatbus_channel_types.h 132-141, 192-194). *)
Record rx := { r_head : bytes; r_big : dmgr; r_open : bool; r_ea : N; r_sf : N; r_hf : N }.

(** [io_stream_make_connection] 766-770: [set_limit(recv_buffer_max_size, 0)], empty head;
    the counters belong to the channel and have any value. *)
Definition rx_init (cfg : rcfg) (ea sf hf : N) : rx :=
  {| r_head := []; r_big := d_init (c_max cfg) 0; r_open := true; r_ea := ea; r_sf := sf; r_hf := hf |}.

Definition with_head (s : rx) (h : bytes) : rx :=
  {| r_head := h; r_big := r_big s; r_open := r_open s; r_ea := r_ea s; r_sf := r_sf s; r_hf := r_hf s |}.
Definition with_big (s : rx) (m : dmgr) : rx :=
  {| r_head := r_head s; r_big := m; r_open := r_open s; r_ea := r_ea s; r_sf := r_sf s; r_hf := r_hf s |}.
Definition count (s : rx) (ea sf hf : N) : rx :=
  {| r_head := r_head s; r_big := r_big s; r_open := r_open s; r_ea := r_ea s + ea; r_sf := r_sf s + sf; r_hf := r_hf s + hf |}.
(** [io_stream_disconnect_inner] 1505-1525 as seen by the reader: [status] leaves CONNECTED. *)
Definition disconnect (s : rx) : rx :=
  {| r_head := r_head s; r_big := r_big s; r_open := false; r_ea := r_ea s; r_sf := r_sf s; r_hf := r_hf s |}.

(** Buffer given to the transport: nothing, a part of the head buffer, or a part of the
    current block, as offset and length. *)
Inductive win := WNone | WHead (off len : N) | WBlock (off len : N).
Definition win_len (w : win) : N := match w with WNone => 0 | WHead _ l => l | WBlock _ l => l end.

(** [io_stream_on_recv_alloc_fn] 338-390. *)
Definition rx_window (s : rx) : win :=
  if negb (r_open s) then WNone else
  match last_split (d_list (r_big s)) with
  | Some (_, b) => if d_left b =? 0 then WHead (blen (r_head s)) (head_cap - blen (r_head s)) else WBlock (d_used b) (d_left b)
  | None => WHead (blen (r_head s)) (head_cap - blen (r_head s))
  end.

(** A receive callback: error code and the bytes it is given. *)
Definition cb := (Z * bytes)%type.

(** Undefined behaviour: hashing [len] bytes where fewer are there (or a length that is
    negative as an [int]), or a copy that leaves its block. *)
Inductive outcome (A : Type) := Fine (a : A) | BadHash (len : N) | BadCopy.
Arguments Fine {A} _. Arguments BadHash {A} _. Arguments BadCopy {A}.

(** memcpy of [d] to [data()] of the last block, inside the block or undefined. *)
Definition fill (m : dmgr) (d : bytes) : option dmgr :=
  match last_split (d_list m) with
  | None => None
  | Some (r, b) =>
      let o := N.to_nat (d_used b) in
      if (o + length d <=? length (d_bytes b))%nat
      then Some {| d_list := r ++ [{| d_size := d_size b; d_used := d_used b;
                                      d_bytes := firstn o (d_bytes b) ++ d ++ skipn (o + length d) (d_bytes b) |}];
                   d_lim := d_lim m |}
      else None
  end.

Section Recv.
Variables (cfg : rcfg) (hash : bytes -> N). (* murmur_hash3_x86_32 with seed 0 *)

(** Hash and size checks of a complete frame with checksum [h]: 457-474 and 522-547.
    Result: error code, counters, whether [is_free] is set. *)
Definition verdict (s : rx) (h : N) (p : bytes) : Z * rx * bool :=
  if negb (hash p =? h) then (E_BAD_DATA, count s 0 0 1, c_hash cfg <? r_hf s + 1)
  else if (0 <? c_limit cfg) && (c_limit cfg <? blen p) then (E_INVALID_SIZE, count s 0 1 0, c_size cfg <? r_sf s + 1)
  else (SUCCESS, s, false).

(** The [while] loop 442-505 on the bytes [buff] at [buff_start]; [ok] is the allocator's
    answer.  [fuel] bounds the iterations; every iteration that goes on consumes at least
    five bytes, so [length buff] is enough.  When [4 + vint_len + msg_len] wraps, the code
    hashes outside the buffer: [BadHash]. *)
Fixpoint head_loop (fuel : nat) (ok : bool) (buff : bytes) (s : rx) (free : bool) (outs : list cb)
  : outcome (bytes * rx * bool * list cb) :=
  match fuel with
  | O => Fine (buff, s, free, outs)
  | S f =>
      if blen buff <=? 4 then Fine (buff, s, free, outs) else
      let (msg_len, vl) := read_vint (skipn 4 buff) in
      if (vl =? 0)%nat then Fine (buff, s, free, outs) else
      if wrap64 (4 + N.of_nat vl + msg_len) <=? blen buff then
        let area := skipn (4 + vl) buff in
        if blen area <? msg_len then BadHash msg_len else
        let p := firstn (N.to_nat msg_len) area in
        let '(code, s', fr) := verdict s (bytes_word (firstn 4 buff)) p in
        head_loop f ok (skipn (N.to_nat msg_len) area) s' (free || fr) (outs ++ [(code, p)])
      else
        let (c, m) := d_push_back ok (r_big s) (repeat 0 (N.to_nat (wrap64 (4 + msg_len)))) in
        if (c =? SUCCESS)%Z then
          match fill m (firstn 4 buff ++ skipn (4 + vl) buff) with
          | None => BadCopy
          | Some m' => Fine ([], with_big s (snd (d_pop_back m' (blen buff - N.of_nat vl) false)), free, outs)
          end
        else Fine (skipn (4 + vl) buff, count s 0 1 0, true, outs)
  end.

(** 521-555: a block that has just become complete is checked, reported and released. *)
Definition block_done (s : rx) (free : bool) (outs : list cb) : outcome (rx * bool * list cb) :=
  match d_list (r_big s) with
  | b :: _ =>
      if d_left b =? 0 then
        if (d_size b <? 4) || (2 ^ 31 <=? d_size b - 4) then BadHash (d_size b - 4) else
        let p := skipn 4 (d_bytes b) in
        let '(code, s', fr) := verdict s (bytes_word (firstn 4 (d_bytes b))) p in
        Fine (with_big s' (snd (d_pop_front (r_big s') 0 true)), free || fr, outs ++ [(code, p)])
      else Fine (s, free, outs)
  | [] => Fine (s, free, outs)
  end.

(** 557-568. *)
Definition give_up (s : rx) (free : bool) (outs : list cb) : rx * list cb :=
  if free then (disconnect s, outs ++ (if 0 <? blen (r_head s) then [(E_INVALID_SIZE, r_head s)] else []))
  else (s, outs).

(** [io_stream_on_recv_read_fn] 392-568 with [nread] > 0: the transport has stored [d] at
    the start of the window.  The memmove 507-511 keeps the unparsed bytes. *)
Definition rx_data (s : rx) (d : bytes) (ok : bool) : outcome (rx * list cb) :=
  let after s free outs :=
    match block_done s free outs with
    | Fine (s', free', outs') => Fine (give_up s' free' outs')
    | BadHash n => BadHash n
    | BadCopy => BadCopy
    end in
  match rx_window s with
  | WNone => Fine (s, [])
  | WHead _ _ =>
      let buff := r_head s ++ d in
      match head_loop (length buff) ok buff s false [] with
      | Fine (h, s', free, outs) => after (with_head s' h) free outs
      | BadHash n => BadHash n
      | BadCopy => BadCopy
      end
  | WBlock _ _ =>
      match fill (r_big s) d with
      | None => BadCopy
      | Some m => after (with_big s (snd (d_pop_back m (blen d) false))) false []
      end
  end.

(** What can happen next: data, an empty read (405-413), a read error or end of file
    (416-424), or activity of other connections of the channel, which share the counters. *)
Inductive rev := EData (d : bytes) (ok : bool) | EAgain | EErr | EOther (ea sf hf : N).

Definition rx_step (s : rx) (e : rev) : outcome (rx * list cb) :=
  match e with
  | EData d ok => rx_data s d ok
  | EAgain =>
      if negb (r_open s) then Fine (s, []) else
      let s' := count s 1 0 0 in
      Fine (if c_eagain cfg <? r_ea s' then disconnect s' else s', [])
  | EErr => if negb (r_open s) then Fine (s, []) else Fine (disconnect s, [(E_READ_FAILED, [])])
  | EOther ea sf hf => Fine (count s ea sf hf, [])
  end.

Fixpoint rx_run (s : rx) (es : list rev) : outcome (rx * list cb) :=
  match es with
  | [] => Fine (s, [])
  | e :: r =>
      match rx_step s e with
      | Fine (s1, o1) =>
          match rx_run s1 r with
          | Fine (s2, o2) => Fine (s2, o1 ++ o2)
          | BadHash n => BadHash n
          | BadCopy => BadCopy
          end
      | BadHash n => BadHash n
      | BadCopy => BadCopy
      end
  end.
End Recv.
