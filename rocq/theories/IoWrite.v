(** Sending side of the stream channel: src/channel_io_stream.cpp, for one connection whose
    [write_buffers] is a dynamic buffer manager (Buffer.v), which is the default
    ([send_buffer_number] = 0, atbus_node.cpp 158).

    Simplifications: the content of the request structure at the start of a block is not
    modelled (zeros); the callbacks of one connection may call [io_stream_send] and
    [io_stream_disconnect] on that connection ([act] below) but nothing else. *)
From Verif Require Import Base BufferSpec Buffer Vint Mem MemSpec.
Local Open Scope N_scope.

(** sizeof(uv_write_t) on Linux x86-64; ATBUS_MACRO_DATA_SMALL_SIZE;
    ATBUS_MACRO_TLS_MERGE_BUFFER_LEN (58). *)
Definition uvw : N := 192.
Definition small_size : N := 3072.
Definition merge_len : N := 262144 - 16 - uvw.

Definition E_INVALID_SIZE : Z := (-8)%Z.
Definition E_CLOSING : Z := (-15)%Z.
Definition E_WRITE_FAILED : Z := (-603)%Z.
Definition UV_ECANCELED : Z := (-125)%Z.

(** [status] of the connection, from CONNECTED on (libatbus_channel_types.h 113-120). *)
Inductive wstat := Connected | Disconnecting | Disconnected.
(** [write_buffers], the flags EN_CF_WRITING and EN_CF_CLOSING, [status]. *)
Record wx := { w_q : dmgr; w_writing : bool; w_closing : bool; w_st : wstat }.

Definition set_q (s : wx) (q : dmgr) : wx := {| w_q := q; w_writing := w_writing s; w_closing := w_closing s; w_st := w_st s |}.
Definition set_writing (s : wx) (b : bool) : wx := {| w_q := w_q s; w_writing := b; w_closing := w_closing s; w_st := w_st s |}.
Definition set_closing (s : wx) : wx := {| w_q := w_q s; w_writing := w_writing s; w_closing := true; w_st := w_st s |}.
Definition set_st (s : wx) (t : wstat) : wx := {| w_q := w_q s; w_writing := w_writing s; w_closing := w_closing s; w_st := t |}.

(** [io_stream_make_connection] 772: [set_limit(send_buffer_max_size, 0)]. *)
Definition w_init (max_size : N) : wx :=
  {| w_q := d_init max_size 0; w_writing := false; w_closing := false; w_st := Connected |}.

(** Observable effects: a send returned; bytes handed to uv_write and accepted; a written
    callback (libuv status, code, payload); uv_close called; the disconnected callback. *)
Inductive wout :=
| OSend (p : bytes) (code : Z)
| OWrite (d : bytes)
| ODone (uv code : Z) (p : bytes)
| OClose
| OClosed.

(** [Crash]: undefined behaviour or a failed assertion. *)
Inductive wres (A : Type) := Ok (a : A) | Crash.
Arguments Ok {A} _. Arguments Crash {A}.

(** The loop over the frames of a block, 1576-1600 and 1652-1673: payloads in order; [None]
    when the content is not a sequence of frames (assert, then undefined). *)
Fixpoint block_msgs (fuel : nat) (d : bytes) : option (list bytes) :=
  match d, fuel with
  | [], _ => Some []
  | _, O => None
  | _, S f =>
      if blen d <? 4 then None else
      let (out, vl) := read_vint (skipn 4 d) in
      if (vl =? 0)%nat || (blen d <? wrap64 (4 + N.of_nat vl + out)) || (two64 <=? 4 + N.of_nat vl + out) then None else
      let area := skipn (4 + vl) d in
      match block_msgs f (skipn (N.to_nat out) area) with
      | None => None
      | Some r => Some (firstn (N.to_nat out) area :: r)
      end
  end.

(** Body of a block after the request structure. *)
Definition body (b : dblock) : bytes := skipn (N.to_nat uvw) (d_bytes b).

Section Write.
Variables (limit : N) (hash : bytes -> N). (* send_buffer_limit_size; murmur_hash3_x86_32 *)

(** 1772-1800: request structure, checksum, length, payload. *)
Definition block_of (p : bytes) : bytes :=
  let (vl, v) := write_vint (blen p) (repeat 0 16) in
  repeat 0 (N.to_nat uvw) ++ word_bytes 4 (hash p) ++ firstn vl v ++ p.

(** 1646-1679: cancel everything that is queued. *)
Fixpoint cancel (fuel : nat) (m : dmgr) : wres (dmgr * list wout) :=
  match d_list m, fuel with
  | [], _ => Ok (m, [])
  | _, O => Crash
  | b :: _, S f =>
      if d_size b <? uvw then Crash else
      match block_msgs (length (body b)) (body b) with
      | None => Crash
      | Some ms =>
          match cancel f (snd (d_pop_front m (d_size b) true)) with
          | Crash => Crash
          | Ok (m', o) => Ok (m', map (fun p => ODone UV_ECANCELED E_CLOSING p) ms ++ o)
          end
      end
  end.

(** 1683-1703: copy blocks to the thread's buffer, [acc] is its content. *)
Fixpoint merge_loop (fuel : nat) (m : dmgr) (avail : N) (acc : bytes) : wres (dmgr * bytes) :=
  match d_list m, fuel with
  | [], _ => Ok (m, acc)
  | _, O => Crash
  | b :: _, S f =>
      if (avail =? 0) || (avail <? d_size b) then Ok (m, acc) else
      if d_size b <? uvw then Crash else
      if merge_len <? blen (acc ++ body b) then Crash else
      merge_loop f (snd (d_pop_front m (d_size b) true)) (avail - (d_size b - uvw)) (acc ++ body b)
  end.

(** 1676-1723: merge when more than one block is queued and the first one is small.  [ok] is
    the allocator's answer; without memory the code goes on with a null pointer. *)
Definition merge (ok : bool) (m : dmgr) : wres dmgr :=
  match d_list m with
  | [] => Crash
  | b :: _ =>
      if (1 <? cost_number (d_lim m)) && (d_size b <=? small_size) then
        match merge_loop (length (d_list m)) m merge_len [] with
        | Crash => Crash
        | Ok (m1, acc) =>
            let (c, m2) := d_push_front ok m1 (repeat 0 (N.to_nat uvw) ++ acc) in
            if (c =? SUCCESS)%Z then Ok m2 else Crash
        end
      else Ok m
  end.

(** The [n] bytes at [d] handed to uv_write (1738-1744); bytes beyond the block, which would
    be read from whatever follows it, are shown as 256. *)
Definition handed (n : N) (d : bytes) : bytes := firstn (N.to_nat n) d ++ repeat 256 (N.to_nat n - length d).
Lemma handed_all d : handed (N.of_nat (length d)) d = d.
Proof. unfold handed. rewrite Nat2N.id, firstn_all, Nat.sub_diag. apply app_nil_r. Qed.

(** [io_stream_try_write] 1623-1757.  [uv] is the result of uv_write.  The recursion 1734
    drops blocks without content; [fuel] bounds it. *)
Fixpoint try_write (fuel : nat) (ok : bool) (uv : Z) (s : wx) : wres (wx * Z * list wout) :=
  if w_writing s then Ok (s, SUCCESS, []) else
  match d_list (w_q s) with
  | [] => Ok (s, SUCCESS, [])
  | _ :: _ =>
      if w_closing s then
        match cancel (length (d_list (w_q s))) (w_q s) with
        | Crash => Crash
        | Ok (m, o) => Ok (set_q s m, SUCCESS, o)
        end
      else
        match merge ok (w_q s) with
        | Crash => Crash
        | Ok m =>
            match d_list m, fuel with
            | [], _ => Crash
            | _, O => Crash
            | b :: _, S f =>
                if d_size b <=? uvw then try_write f ok uv (set_q s (snd (d_pop_front m (d_size b) true)))
                else if (uv =? 0)%Z
                then Ok (set_writing (set_q s m) true, SUCCESS, [OWrite (handed ((d_size b - uvw) mod 2 ^ 32) (body b))])
                else Ok (set_q s m, E_WRITE_FAILED, [])
            end
        end
  end.
Definition try_write_all (ok : bool) (uv : Z) (s : wx) := try_write (S (length (d_list (w_q s)))) ok uv s.

(** [io_stream_send] 1759-1804.  [ok1], [ok2]: allocator's answers for the block and for the
    merged block. *)
Definition w_send (s : wx) (p : bytes) (ok1 ok2 : bool) (uv : Z) : wres (wx * list wout) :=
  if (0 <? limit) && (limit <? blen p) then Ok (s, [OSend p E_INVALID_SIZE]) else
  match w_st s with
  | Connected =>
      let go s :=
        match try_write_all ok2 uv s with
        | Crash => Crash
        | Ok (s', c, o) => Ok (s', o ++ [OSend p c])
        end in
      match p with
      | [] => go s
      | _ :: _ =>
          let (c, m) := d_push_back ok1 (w_q s) (block_of p) in
          if (c <? 0)%Z then Ok (s, [OSend p c]) else go (set_q s m)
      end
  | _ => Ok (s, [OSend p E_CLOSING])
  end.

(** [io_stream_disconnect_run] 1488-1503. *)
Definition disc_run (s : wx) : wx * list wout :=
  if w_closing s then (s, []) else (set_closing s, [OClose]).

(** [io_stream_disconnect_inner] 1505-1525. *)
Definition w_disc (s : wx) (force : bool) : wx * list wout :=
  match w_st s with
  | Connected =>
      let s := set_st s Disconnecting in
      if negb force && w_writing s then (s, []) else disc_run s
  | _ => (s, [])
  end.

(** What a written callback may do: send (with the allocator's answer) or disconnect. *)
Inductive act := ASend (p : bytes) (ok : bool) | ADisc (force : bool).
(** Inside [io_stream_on_written_fn] the WRITING flag is still set, so a send never reaches
    uv_write; the values given for it do not matter. *)
Fixpoint do_acts (s : wx) (l : list act) : wres (wx * list wout) :=
  match l with
  | [] => Ok (s, [])
  | a :: r =>
      match match a with ASend p ok => w_send s p ok false 0 | ADisc f => Ok (w_disc s f) end with
      | Crash => Crash
      | Ok (s1, o1) => match do_acts s1 r with Crash => Crash | Ok (s2, o2) => Ok (s2, o1 ++ o2) end
      end
  end.
(** The callbacks of the frames of one block, in order, each followed by its actions. *)
Fixpoint callbacks (s : wx) (uv : Z) (ms : list bytes) (acts : list (list act)) : wres (wx * list wout) :=
  match ms with
  | [] => Ok (s, [])
  | p :: r =>
      match do_acts s (hd [] acts) with
      | Crash => Crash
      | Ok (s1, o1) =>
          match callbacks s1 uv r (tl acts) with
          | Crash => Crash
          | Ok (s2, o2) => Ok (s2, ODone uv SUCCESS p :: o1 ++ o2)
          end
      end
  end.

(** [io_stream_on_written_fn] 1544-1621 with libuv status [uv]; [ok], [uv'] for the write
    that may follow. *)
Definition w_done (s : wx) (uv : Z) (acts : list (list act)) (ok : bool) (uv' : Z) : wres (wx * list wout) :=
  match match d_list (w_q s) with
        | [] => Ok (s, [])
        | b :: _ =>
            if d_left b =? 0 then Ok (set_q s (snd (d_pop_front (w_q s) 0 true)), []) else
            if d_left b <? uvw then Crash else
            match block_msgs (length (body b)) (firstn (N.to_nat (d_left b - uvw)) (body b)) with
            | None => Crash
            | Some ms =>
                match callbacks s uv ms acts with
                | Crash => Crash
                | Ok (s1, o) => Ok (set_q s1 (snd (d_pop_front (w_q s1) (d_left b) true)), o)
                end
            end
        end with
  | Crash => Crash
  | Ok (s1, o1) =>
      match try_write_all ok uv' (set_writing s1 false) with
      | Crash => Crash
      | Ok (s2, _, o2) =>
          let (s3, o3) := match w_st s2 with
                          | Disconnecting => if w_writing s2 then (s2, []) else disc_run s2
                          | _ => (s2, [])
                          end in
          Ok (s3, o1 ++ o2 ++ o3)
      end
  end.

(** What can happen next: a send, the completion of the write in progress, a disconnect
    request (also made by the reader on errors), libuv's close callback
    [io_stream_connection_on_close] 636-665. *)
Inductive wev :=
| ESend (p : bytes) (ok1 ok2 : bool) (uv : Z)
| EDone (uv : Z) (acts : list (list act)) (ok : bool) (uv' : Z)
| EDisc (force : bool)
| EClosed.

Definition w_step (s : wx) (e : wev) : wres (wx * list wout) :=
  match e with
  | ESend p ok1 ok2 uv => w_send s p ok1 ok2 uv
  | EDone uv acts ok uv' => w_done s uv acts ok uv'
  | EDisc f => Ok (w_disc s f)
  | EClosed => Ok (set_st s Disconnected, [OClosed])
  end.

Fixpoint w_run (s : wx) (es : list wev) : wres (wx * list wout) :=
  match es with
  | [] => Ok (s, [])
  | e :: r =>
      match w_step s e with
      | Crash => Crash
      | Ok (s1, o1) => match w_run s1 r with Crash => Crash | Ok (s2, o2) => Ok (s2, o1 ++ o2) end
      end
  end.
End Write.
