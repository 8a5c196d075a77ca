(** Memory channel, executed by one thread at a time: src/channel_mem.cpp.

    The shared memory is split as the code splits it: a header (cursors, sequence
    number, configuration), one head (flag, sequence number) per node, and the data
    area of 256 bytes per node as flat byte memory; block heads live inside the data
    area.  The configuration is the default one (a [mem_conf] cannot be built outside
    channel_mem.cpp because the type is incomplete there).  Statistics counters are
    left out.  The hash is an arbitrary function. *)
From Verif Require Import Base MemSpec.
Local Open Scope N_scope.

Definition E_BAD_DATA : Z := (-7)%Z.
Definition E_SIZE_TOO_SMALL : Z := (-101)%Z.
Definition E_BLOCK_NODE_NUM : Z := (-202)%Z.
Definition E_BLOCK_BUFF_SIZE : Z := (-203)%Z.
Definition E_BLOCK_CSEQ : Z := (-205)%Z.

Definition two32 : N := 4294967296.
Definition MF_WRITEN : N := 1.
Definition MF_START : N := 2.
Definition node_sz : N := 256.
Definition bhead : N := 16.

(** [mem_channel] and the areas behind it (92-130, 132-162). *)
Record chan := {
  ch_n : N;                    (* node_count *)
  ch_p : N;                    (* conf.protect_node_count *)
  ch_timeout : N;              (* conf.conf_send_timeout_ms *)
  ch_retry : N;                (* conf.write_retry_times *)
  ch_r : N; ch_w : N;          (* atomic_read_cur, atomic_write_cur *)
  ch_seq : N;                  (* atomic_operation_seq *)
  ch_fft : N;                  (* first_failed_writing_time *)
  ch_heads : N -> N * N;       (* node heads: flag, operation_seq *)
  ch_data : N -> N             (* data area *)
}.
Definition with_seq (c : chan) (s : N) : chan :=
  {| ch_n := ch_n c; ch_p := ch_p c; ch_timeout := ch_timeout c; ch_retry := ch_retry c; ch_r := ch_r c; ch_w := ch_w c;
     ch_seq := s; ch_fft := ch_fft c; ch_heads := ch_heads c; ch_data := ch_data c |}.
Definition with_written (c : chan) (w : N) (h : N -> N * N) (d : N -> N) : chan :=
  {| ch_n := ch_n c; ch_p := ch_p c; ch_timeout := ch_timeout c; ch_retry := ch_retry c; ch_r := ch_r c; ch_w := w;
     ch_seq := ch_seq c; ch_fft := ch_fft c; ch_heads := h; ch_data := d |}.
Definition with_read (c : chan) (r fft : N) (h : N -> N * N) : chan :=
  {| ch_n := ch_n c; ch_p := ch_p c; ch_timeout := ch_timeout c; ch_retry := ch_retry c; ch_r := r; ch_w := ch_w c;
     ch_seq := ch_seq c; ch_fft := fft; ch_heads := h; ch_data := ch_data c |}.

(** Byte memory. *)
Definition write_bytes (m : N -> N) (a : N) (bs : bytes) : N -> N :=
  fun x => if (a <=? x) && (x <? a + blen bs) then nth (N.to_nat (x - a)) bs 0 else m x.
Fixpoint read_bytes (m : N -> N) (a : N) (k : nat) : bytes :=
  match k with O => [] | S k' => m a :: read_bytes m (a + 1) k' end.
(** 64-bit words, little endian. *)
Fixpoint word_bytes (k : nat) (v : N) : bytes :=
  match k with O => [] | S k' => v mod 256 :: word_bytes k' (v / 256) end.
Fixpoint bytes_word (bs : bytes) : N := match bs with [] => 0 | b :: r => b + 256 * bytes_word r end.
Definition write_word (m : N -> N) (a v : N) : N -> N := write_bytes m a (word_bytes 8 v).
Definition read_word (m : N -> N) (a : N) : N := bytes_word (read_bytes m a 8).

Definition set_head (h : N -> N * N) (i : N) (v : N * N) : N -> N * N := fun x => if x =? i then v else h x.
Definition set_flag (h : N -> N * N) (i f : N) : N -> N * N := set_head h i (f, snd (h i)).

(** [mem_next_index] (332-335), [mem_get_available_node_count] (344-356),
    [mem_get_node_range_count] (365-368), [mem_fetch_operation_seq] (382-389),
    [mem_calc_node_num] (396-400), [mem_fast_check] (408-411). *)
Definition next_index (n i k : N) : N := (i + k) mod n.
Definition available (n p r w : N) : N :=
  let x := (r + n - w - 1) mod n in if p <=? x then x - p else 0.
Definition range_count (n b e : N) : N := (e + n - b) mod n.
Definition fetch_seq (s : N) : N := let s1 := (s + 1) mod two32 in if s1 =? 0 then 1 else s1.
Definition calc_nodes (len : N) : N := wrap64 (len + bhead + node_sz - 1) / 256.

(** [mem_default_conf] (240-272) for a fresh channel. *)
Definition default_protect (n : N) : N := let p := n / 128 in if 64 <? p then 64 else p.

(** [mem_init] (484-534); the buffer is zeroed. *)
Definition mem_init (len : N) : Z * option chan :=
  if len <? 4096 + node_sz + 16 then (E_SIZE_TOO_SMALL, None)
  else let n := (len - 4096) / (node_sz + 16) in
       (OK, Some {| ch_n := n; ch_p := default_protect n; ch_timeout := 4; ch_retry := 4; ch_r := 0; ch_w := 0; ch_seq := 0;
                    ch_fft := 0; ch_heads := fun _ => (0, 0); ch_data := fun _ => 0 |}).

Section Hash.
Variable hash : bytes -> N.
Definition fast_check (m : bytes) : N := hash m mod two64.

(** The loop that marks the nodes after the first one (586-602). *)
Fixpoint mark_nodes (fuel : nat) (n i stop seq : N) (h : N -> N * N) : N -> N * N :=
  match fuel with
  | O => h
  | S f => if i =? stop then h else mark_nodes f n (next_index n i 1) stop seq (set_head h i (MF_WRITEN, seq))
  end.

(** [mem_send_real] (536-647).  The [memcpy] of the payload is split when the block
    wraps around the end of the data area (608-618). *)
Definition send_real (c : chan) (m : bytes) : Z * chan :=
  let len := blen m in
  if len =? 0 then (OK, c)
  else
    let k := calc_nodes len in
    if ch_n c - ch_p c <=? k then (E_BUFF_LIMIT, c)
    else
      let seq := fetch_seq (ch_seq c) in
      let c := with_seq c seq in
      let w := ch_w c in
      if available (ch_n c) (ch_p c) (ch_r c) w <? k then (E_BUFF_LIMIT, c)
      else
        let w' := next_index (ch_n c) w k in
        let head := node_sz * w in
        let start := head + bhead in
        let room := node_sz * ch_n c - node_sz * w - bhead in
        let d0 := write_bytes (ch_data c) head (repeat 0 16) in
        let h0 := set_head (ch_heads c) w (MF_START, seq) in
        let h1 := mark_nodes (N.to_nat (ch_n c)) (ch_n c) (next_index (ch_n c) w 1) w' seq h0 in
        let d1 := write_word d0 head len in
        let d2 := if negb (w' =? 0) && (w' <? w)
                  then let k1 := N.to_nat (if room <? len then room else len) in
                       write_bytes (write_bytes d1 start (firstn k1 m)) 0 (skipn k1 m)
                  else write_bytes d1 start m in
        let d3 := write_word d2 (head + 8) (fast_check m) in
        let h2 := set_flag h1 w (N.lor (fst (h1 w)) MF_WRITEN) in
        let c' := with_written c w' h2 d3 in
        if snd (h2 w) =? seq then (OK, c') else (E_BLOCK_CSEQ, c').

(** [mem_send] (649-667); [fuel] is the retry counter. *)
Fixpoint send_retry (fuel : nat) (c : chan) (m : bytes) (ret : Z) : Z * chan :=
  match fuel with
  | O => (ret, c)
  | S f => let (r, c') := send_real c m in
           if (r =? E_BLOCK_CSEQ)%Z then send_retry f c' m r else (r, c')
  end.
Definition mem_send (c : chan) (m : bytes) : Z * chan := send_retry (N.to_nat (ch_retry c)) c m OK.

(** The inner loop that walks over the nodes of a block and clears their flags
    (797-815): stops at the write cursor, at another sequence number, or at another
    start node.  [first] is read_begin_cur. *)
Fixpoint scan_block (fuel : nat) (n first i w seq : N) (h : N -> N * N) : N * (N -> N * N) :=
  match fuel with
  | O => (i, h)
  | S f =>
      if i =? w then (i, h)
      else if negb (snd (h i) =? seq) then (i, h)
      else if negb (i =? first) && N.testbit (fst (h i)) 1 then (i, h)
      else scan_block f n first (next_index n i 1) w seq (set_flag h i 0)
  end.

(** State of the outer loop of [mem_recv] (687-831): heads, first failed time, error
    so far, read_begin_cur, timeout sequence, number of clock readings, recv_size. *)
Record rstate := { rs_heads : N -> N * N; rs_fft : N; rs_ret : Z; rs_cur : N; rs_tmo : N; rs_clk : nat; rs_size : option N }.
(** Result: final loop state, read_end_cur. *)
Inductive rloop := LoopDone (s : rstate) (end_cur : N) | LoopOut.

Definition or_ret (r d : Z) : Z := if (r =? 0)%Z then d else r.
Definition advance (n : N) (s : rstate) (fft : N) (ret : Z) (tmo : N) (clk : nat) (h : N -> N * N) : rstate :=
  {| rs_heads := h; rs_fft := fft; rs_ret := ret; rs_cur := next_index n (rs_cur s) 1; rs_tmo := tmo; rs_clk := clk; rs_size := rs_size s |}.
Definition stop_with (s : rstate) (fft : N) (ret : Z) (clk : nat) (size : option N) : rstate :=
  {| rs_heads := rs_heads s; rs_fft := fft; rs_ret := ret; rs_cur := rs_cur s; rs_tmo := rs_tmo s; rs_clk := clk; rs_size := size |}.

(** One pass of the outer loop.  [clock] gives the successive clock readings in
    milliseconds. *)
Inductive pass := Again (s : rstate) | Leave (s : rstate) (end_cur : N).
Definition recv_pass (c : chan) (clock : nat -> N) (cap : N) (s : rstate) : pass :=
  let n := ch_n c in
  let w := ch_w c in
  let i := rs_cur s in
  if i =? w then Leave (stop_with s (rs_fft s) (or_ret (rs_ret s) E_NO_DATA) (rs_clk s) (rs_size s)) i
  else
    let '(flag, seq) := rs_heads s i in
    let cleared := set_flag (rs_heads s) i 0 in
    if negb (N.testbit flag 0) then
      let now := clock (rs_clk s) in
      let clk := S (rs_clk s) in
      if negb (rs_tmo s =? 0) && (rs_tmo s =? seq) && negb (N.testbit flag 1)
      then Again (advance n s (rs_fft s) (rs_ret s) (rs_tmo s) clk cleared)
      else if rs_fft s =? 0
      then Leave (stop_with s now (or_ret (rs_ret s) E_NO_DATA) clk (rs_size s)) i
      else let cd := if rs_fft s <? now then now - rs_fft s else rs_fft s - now in
           if ch_timeout c <? cd
           then Again (advance n s 0 (rs_ret s) seq clk cleared)
           else Leave (stop_with s (rs_fft s) (or_ret (rs_ret s) E_NO_DATA) clk (rs_size s)) i
    else if negb (N.testbit flag 1)
    then Again (advance n s (rs_fft s) (rs_ret s) (rs_tmo s) (rs_clk s) cleared)
    else if negb (rs_ret s =? 0)%Z
    then Leave s i
    else
      let size := read_word (ch_data c) (node_sz * i) in
      if (size =? 0) || (node_sz * n - node_sz * ch_p c <=? size)
      then Again (advance n s (rs_fft s) (or_ret (rs_ret s) E_BLOCK_BUFF_SIZE) (rs_tmo s) (rs_clk s) cleared)
      else if cap <? size
      then Leave (stop_with s (rs_fft s) (or_ret (rs_ret s) E_BUFF_LIMIT) (rs_clk s) (Some size)) i
      else
        let '(e, h) := scan_block (S (N.to_nat n)) n i i w seq (rs_heads s) in
        if calc_nodes size =? range_count n i e
        then Leave {| rs_heads := h; rs_fft := rs_fft s; rs_ret := rs_ret s; rs_cur := i; rs_tmo := rs_tmo s; rs_clk := rs_clk s; rs_size := rs_size s |} e
        else Again (advance n s (rs_fft s) (or_ret (rs_ret s) E_BLOCK_NODE_NUM) (rs_tmo s) (rs_clk s) h).

Fixpoint recv_loop (fuel : nat) (c : chan) (clock : nat -> N) (cap : N) (s : rstate) : rloop :=
  match fuel with
  | O => LoopOut
  | S f => match recv_pass c clock cap s with
           | Again s' => recv_loop f c clock cap s'
           | Leave s' e => LoopDone s' e
           end
  end.

(** [mem_recv] (669-875).  [Fault]: the cursor lies outside the node array;
    [Unfinished]: more than [fuel] passes. *)
Inductive recv_result :=
| Done (code : Z) (written : bytes) (size : option N) (c : chan)
| Fault
| Unfinished.
Definition mem_recv_fuel (fuel : nat) (c : chan) (clock : nat -> N) (cap : N) : recv_result :=
  if ch_n c <=? ch_r c then Fault
  else
    match recv_loop fuel c clock cap
      {| rs_heads := ch_heads c; rs_fft := ch_fft c; rs_ret := OK; rs_cur := ch_r c; rs_tmo := 0; rs_clk := 0; rs_size := None |} with
    | LoopOut => Unfinished
    | LoopDone s e =>
        if negb (rs_ret s =? 0)%Z then Done (rs_ret s) [] (rs_size s) (with_read c e (rs_fft s) (rs_heads s))
        else
          let i := rs_cur s in
          let size := read_word (ch_data c) (node_sz * i) in
          let start := node_sz * i + bhead in
          let room := node_sz * ch_n c - node_sz * i - bhead in
          let out := if size <=? room then read_bytes (ch_data c) start (N.to_nat size)
                     else read_bytes (ch_data c) start (N.to_nat room) ++ read_bytes (ch_data c) 0 (N.to_nat (size - room)) in
          let ok := fast_check out =? read_word (ch_data c) (node_sz * i + 8) in
          Done (if ok then OK else E_BAD_DATA) out (Some size) (with_read c e 0 (rs_heads s))
    end.
(** The loop visits each node at most once (proved in MemProof). *)
Definition mem_recv (c : chan) (clock : nat -> N) (cap : N) : recv_result :=
  mem_recv_fuel (S (N.to_nat (ch_n c))) c clock cap.

(** Call histories by one thread; the clock may differ for every call. *)
Inductive cop := CSend (m : bytes) | CRecv (clock : nat -> N) (cap : N).
Definition chan_step (c : chan) (o : cop) : option (mout * chan) :=
  match o with
  | CSend m => let (r, c') := mem_send c m in Some (Sent r, c')
  | CRecv clk cap => match mem_recv c clk cap with
                     | Done r b sz c' => Some (Got r b sz, c')
                     | _ => None
                     end
  end.
Fixpoint chan_run (c : chan) (os : list cop) : option (list mout * chan) :=
  match os with
  | [] => Some ([], c)
  | o :: r => match chan_step c o with
              | None => None
              | Some (x, c1) => match chan_run c1 r with
                                | None => None
                                | Some (xs, c2) => Some (x :: xs, c2)
                                end
              end
  end.
End Hash.
