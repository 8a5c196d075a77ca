(** Memory channel with any number of writers and one reader running concurrently:
    src/channel_mem.cpp, [mem_send]/[mem_send_real] (536-667) and [mem_recv] (669-875).

    Small-step model: one step is one access to shared memory (an atomic load, a
    compare-and-swap, the load or store of one node head field or of one byte of the
    data area).  Stores take effect in program order and are seen by everyone at once
    (sequential consistency; the code relies on fences and volatile for this).
    [buffer_size] is loaded twice per receive: for the checks before the fence (764-814)
    and for the copy after it (830-844).
    Writers are created at any time, one per [mem_send] call; a writer that is never
    scheduled again has crashed or is stuck.

    Fields marked "ghost" record history for the statements; no step looks at them. *)
From Verif Require Import Base MemSpec Mem.
Local Open Scope N_scope.

(** Shared cells: flag and operation_seq of node [i], byte [a] of the data area. *)
Inductive cell := CFlag (i : N) | CSeq (i : N) | CData (a : N).
Definition cell_eqb (x y : cell) : bool :=
  match x, y with
  | CFlag i, CFlag j => i =? j
  | CSeq i, CSeq j => i =? j
  | CData i, CData j => i =? j
  | _, _ => false
  end.
Definition cell_upd (m : cell -> N) (c : cell) (v : N) : cell -> N := fun x => if cell_eqb x c then v else m x.

(** Stores of consecutive bytes. *)
Fixpoint stores_at (f : N -> cell) (j : N) (bs : bytes) : list (cell * N) :=
  match bs with [] => [] | b :: r => (f j, b) :: stores_at f (j + 1) r end.
Definition word_stores (a v : N) : list (cell * N) := stores_at (fun j => CData (a + j)) 0 (word_bytes 8 v).
(** Address of byte [j] of the payload of a block that starts at node [w]: the two
    [memcpy] calls of 608-618 and 833-845. *)
Definition payload_addr (n w j : N) : N :=
  let a := 256 * w + 16 + j in if a <? 256 * n then a else a - 256 * n.
(** The loop over the other nodes (586-602). *)
Fixpoint mark_stores (fuel : nat) (n i stop seq : N) : list (cell * N) :=
  match fuel with
  | O => []
  | S f => if i =? stop then [] else (CFlag i, MF_WRITEN) :: (CSeq i, seq) :: mark_stores f n (next_index n i 1) stop seq
  end.

(** A reserved block (ghost): absolute position of its first node, message, sequence
    number, stores executed so far, whether its completion flag has been set, and
    whether the reader has passed over it without delivering it. *)
Record blk := { b_pos : N; b_msg : bytes; b_seq : N; b_done : list (cell * N); b_fin : bool; b_skip : bool }.

(** Program counters of a writer. *)
Inductive wpc :=
| WFetch                                   (* about to fetch an operation sequence number *)
| WLoadW (sq : N)                          (* about to load the write cursor *)
| WLoadR (sq wl : N) (gw : N)              (* about to load the read cursor; gw ghost: absolute write position loaded *)
| WCas (sq wl : N) (gw gr : N)             (* about to compare-and-swap; gr ghost: absolute read position loaded *)
| WStore (b : nat) (w sq : N) (todo : list (cell * N))  (* b ghost: index of the reserved block *)
| WOr (b : nat) (w sq f : N)               (* about to store the first node's flag, f = value read *)
| WCheck (w sq : N)                        (* about to re-check the sequence number *)
| WRet (code : Z).
Record op := { o_msg : bytes; o_left : nat; o_pc : wpc }.

(** Locals of the reader: buffer length, original read cursor, write cursor loaded,
    timeout_operation_seq, read_begin_cur, ret; ghosts: absolute positions. *)
Record loc := { l_cap : N; l_ori : N; l_w : N; l_tmo : N; l_rb : N; l_ret : Z; l_gw : N; l_grb : N }.
Inductive rpc :=
| RIdle
| RLoadW (cap ori : N)
| RTop (l : loc)                           (* loop head: compare cursors, load the flag *)
| RStart (l : loc)                         (* WRITEN seen: load the flag again *)
| RNoW (l : loc) (now : N)                 (* not WRITEN: compare operation_seq *)
| RFast (l : loc) (now : N)                (* sequence equal: load the flag *)
| RTimer (l : loc) (now : N)
| RSkip (l : loc)                          (* about to clear the flag and advance *)
| RSize (l : loc) (acc : bytes)            (* loading buffer_size *)
| RSeq (l : loc) (size : N)
| RScan (l : loc) (size sq e : N) (ge : N) (* inner loop; ge ghost: absolute e *)
| RScanF (l : loc) (size sq e : N) (ge : N)
| RClr (l : loc) (size sq e : N) (ge : N)
| RSize2 (l : loc) (e : N) (acc : bytes) (ge : N)  (* loading buffer_size again, after the fence *)
| RCopy (l : loc) (size e : N) (acc : bytes) (ge : N)
| RHash (l : loc) (out : bytes) (e : N) (acc : bytes) (ge : N)
| RStore (ori e : N) (code : Z) (out : bytes) (ge : N).

Record st := {
  s_mem : cell -> N; s_r : N; s_w : N; s_seq : N; s_fft : N;
  s_ops : list op; s_rd : rpc;
  s_log : list (Z * bytes);                (* results of the receives so far *)
  s_gr : N; s_gw : N; s_blks : list blk    (* ghosts: absolute cursors, reservations in order *)
}.

Definition set_nth {A} (i : nat) (v : A) (l : list A) : list A :=
  firstn i l ++ match skipn i l with [] => [] | _ :: r => v :: r end.

Section Conf.
Variables (n p timeout : N) (hash : bytes -> N).

Definition init : st :=
  {| s_mem := fun _ => 0; s_r := 0; s_w := 0; s_seq := 0; s_fft := 0; s_ops := []; s_rd := RIdle; s_log := [];
     s_gr := 0; s_gw := 0; s_blks := [] |}.

(** All stores of a send between reservation and completion (582-620). *)
Definition block_stores (w k sq : N) (m : bytes) : list (cell * N) :=
  stores_at (fun j => CData (256 * w + j)) 0 (repeat 0 16) ++
  word_stores (256 * w) 0 ++
  [(CFlag w, MF_START); (CSeq w, sq)] ++
  mark_stores (N.to_nat n) n (next_index n w 1) (next_index n w k) sq ++
  word_stores (256 * w) (blen m) ++
  stores_at (fun j => CData (payload_addr n w j)) 0 m ++
  word_stores (256 * w + 8) (fast_check hash m).

Definition with_op (s : st) (i : nat) (o : op) : st :=
  {| s_mem := s_mem s; s_r := s_r s; s_w := s_w s; s_seq := s_seq s; s_fft := s_fft s; s_ops := set_nth i o (s_ops s);
     s_rd := s_rd s; s_log := s_log s; s_gr := s_gr s; s_gw := s_gw s; s_blks := s_blks s |}.
Definition with_mem (s : st) (m : cell -> N) : st :=
  {| s_mem := m; s_r := s_r s; s_w := s_w s; s_seq := s_seq s; s_fft := s_fft s; s_ops := s_ops s;
     s_rd := s_rd s; s_log := s_log s; s_gr := s_gr s; s_gw := s_gw s; s_blks := s_blks s |}.
Definition with_opseq (s : st) (q : N) : st :=
  {| s_mem := s_mem s; s_r := s_r s; s_w := s_w s; s_seq := q; s_fft := s_fft s; s_ops := s_ops s;
     s_rd := s_rd s; s_log := s_log s; s_gr := s_gr s; s_gw := s_gw s; s_blks := s_blks s |}.
Definition with_w (s : st) (w gw : N) (bs : list blk) : st :=
  {| s_mem := s_mem s; s_r := s_r s; s_w := w; s_seq := s_seq s; s_fft := s_fft s; s_ops := s_ops s;
     s_rd := s_rd s; s_log := s_log s; s_gr := s_gr s; s_gw := gw; s_blks := bs |}.
Definition with_blks (s : st) (bs : list blk) : st := with_w s (s_w s) (s_gw s) bs.
Definition with_rd (s : st) (r : rpc) : st :=
  {| s_mem := s_mem s; s_r := s_r s; s_w := s_w s; s_seq := s_seq s; s_fft := s_fft s; s_ops := s_ops s;
     s_rd := r; s_log := s_log s; s_gr := s_gr s; s_gw := s_gw s; s_blks := s_blks s |}.
Definition with_fft (s : st) (t : N) : st :=
  {| s_mem := s_mem s; s_r := s_r s; s_w := s_w s; s_seq := s_seq s; s_fft := t; s_ops := s_ops s;
     s_rd := s_rd s; s_log := s_log s; s_gr := s_gr s; s_gw := s_gw s; s_blks := s_blks s |}.
Definition with_ops (s : st) (os : list op) : st :=
  {| s_mem := s_mem s; s_r := s_r s; s_w := s_w s; s_seq := s_seq s; s_fft := s_fft s; s_ops := os;
     s_rd := s_rd s; s_log := s_log s; s_gr := s_gr s; s_gw := s_gw s; s_blks := s_blks s |}.
Definition with_result (s : st) (r gr : N) (x : Z * bytes) : st :=
  {| s_mem := s_mem s; s_r := r; s_w := s_w s; s_seq := s_seq s; s_fft := s_fft s; s_ops := s_ops s;
     s_rd := RIdle; s_log := s_log s ++ [x]; s_gr := gr; s_gw := s_gw s; s_blks := s_blks s |}.

Definition pc (o : op) (p : wpc) : op := {| o_msg := o_msg o; o_left := o_left o; o_pc := p |}.
Definition done_more (b : blk) (x : cell * N) : blk :=
  {| b_pos := b_pos b; b_msg := b_msg b; b_seq := b_seq b; b_done := b_done b ++ [x]; b_fin := b_fin b; b_skip := b_skip b |}.
Definition finish (b : blk) (x : cell * N) : blk :=
  {| b_pos := b_pos b; b_msg := b_msg b; b_seq := b_seq b; b_done := b_done b ++ [x]; b_fin := true; b_skip := b_skip b |}.
Definition mark_skip (b : blk) : blk :=
  {| b_pos := b_pos b; b_msg := b_msg b; b_seq := b_seq b; b_done := b_done b; b_fin := b_fin b; b_skip := true |}.
Definition upd_blk (s : st) (i : nat) (f : blk -> blk) : st :=
  match nth_error (s_blks s) i with Some b => with_blks s (set_nth i (f b) (s_blks s)) | None => s end.

(** One step of writer [i]; [weak]: the compare-and-swap fails spuriously. *)
Definition wstep (i : nat) (weak : bool) (s : st) : option st :=
  match nth_error (s_ops s) i with
  | None => None
  | Some o =>
      let m := o_msg o in
      let k := calc_nodes (blen m) in
      let go s' pc' := Some (with_op s' i (pc o pc')) in
      match o_pc o with
      | WFetch =>
          if blen m =? 0 then go s (WRet OK)
          else if n - p <=? k then go s (WRet E_BUFF_LIMIT)
          else let q := (s_seq s + 1) mod two32 in
               if q =? 0 then Some (with_opseq s q) else go (with_opseq s q) (WLoadW q)
      | WLoadW sq => go s (WLoadR sq (s_w s) (s_gw s))
      | WLoadR sq wl gw =>
          if available n p (s_r s) wl <? k then go s (WRet E_BUFF_LIMIT) else go s (WCas sq wl gw (s_gr s))
      | WCas sq wl gw gr =>
          if (s_w s =? wl) && negb weak
          then let b := {| b_pos := s_gw s; b_msg := m; b_seq := sq; b_done := []; b_fin := false; b_skip := false |} in
               go (with_w s (next_index n wl k) (s_gw s + k) (s_blks s ++ [b]))
                  (WStore (length (s_blks s)) wl sq (block_stores wl k sq m))
          else go s (WLoadR sq (s_w s) (s_gw s))
      | WStore b w sq ((c, v) :: todo) =>
          go (upd_blk (with_mem s (cell_upd (s_mem s) c v)) b (fun x => done_more x (c, v))) (WStore b w sq todo)
      | WStore b w sq [] => go s (WOr b w sq (s_mem s (CFlag w)))
      | WOr b w sq f =>
          let v := N.lor f MF_WRITEN in
          go (upd_blk (with_mem s (cell_upd (s_mem s) (CFlag w) v)) b (fun x => finish x (CFlag w, v))) (WCheck w sq)
      | WCheck w sq =>
          if s_mem s (CSeq w) =? sq then go s (WRet OK)
          else match o_left o with
               | O => go s (WRet E_BLOCK_CSEQ)
               | S l => Some (with_op s i {| o_msg := m; o_left := l; o_pc := WFetch |})
               end
      | WRet _ => None
      end
  end.

Definition with_rb (l : loc) (tmo : N) (ret : Z) : loc :=
  {| l_cap := l_cap l; l_ori := l_ori l; l_w := l_w l; l_tmo := tmo; l_rb := l_rb l; l_ret := ret; l_gw := l_gw l; l_grb := l_grb l |}.
Definition next_rb (l : loc) : loc :=
  {| l_cap := l_cap l; l_ori := l_ori l; l_w := l_w l; l_tmo := l_tmo l; l_rb := next_index n (l_rb l) 1; l_ret := l_ret l;
     l_gw := l_gw l; l_grb := l_grb l + 1 |}.
Definition bail (l : loc) (code : Z) : rpc := RStore (l_ori l) (l_rb l) (or_ret (l_ret l) code) [] (l_grb l).
(** The block in which absolute position [x] lies is passed over (ghost). *)
Definition skip_at (x : N) (bs : list blk) : list blk :=
  map (fun b => if (b_pos b <=? x) && (x <? b_pos b + cost (b_msg b)) then mark_skip b else b) bs.

(** One step of the reader; [now] is the clock. *)
Definition rstep (now : N) (s : st) : option st :=
  let m := s_mem s in
  let go pc' := Some (with_rd s pc') in
  match s_rd s with
  | RIdle => None
  | RLoadW cap ori =>
      go (RTop {| l_cap := cap; l_ori := ori; l_w := s_w s; l_tmo := 0; l_rb := ori; l_ret := OK; l_gw := s_gw s; l_grb := s_gr s |})
  | RTop l =>
      if l_rb l =? l_w l then go (bail l E_NO_DATA)
      else if N.testbit (m (CFlag (l_rb l))) 0 then go (RStart l) else go (RNoW l now)
  | RStart l =>
      if negb (N.testbit (m (CFlag (l_rb l))) 1) then go (RSkip l)
      else if negb (l_ret l =? 0)%Z then go (bail l OK)
      else go (RSize l [])
  | RNoW l t =>
      if negb (l_tmo l =? 0) && (l_tmo l =? m (CSeq (l_rb l))) then go (RFast l t) else go (RTimer l t)
  | RFast l t => if negb (N.testbit (m (CFlag (l_rb l))) 1) then go (RSkip l) else go (RTimer l t)
  | RTimer l t =>
      if s_fft s =? 0 then Some (with_rd (with_fft s t) (bail l E_NO_DATA))
      else let cd := if s_fft s <? t then t - s_fft s else s_fft s - t in
           if timeout <? cd then Some (with_rd (with_fft s 0) (RSkip (with_rb l (m (CSeq (l_rb l))) (l_ret l))))
           else go (bail l E_NO_DATA)
  | RSkip l =>
      Some (with_rd (with_blks (with_mem s (cell_upd m (CFlag (l_rb l)) 0)) (skip_at (l_grb l) (s_blks s))) (RTop (next_rb l)))
  | RSize l acc =>
      if (length acc <? 8)%nat then go (RSize l (acc ++ [m (CData (256 * l_rb l + N.of_nat (length acc)))]))
      else let size := bytes_word acc in
           if (size =? 0) || (256 * n - 256 * p <=? size) then go (RSkip (with_rb l (l_tmo l) (or_ret (l_ret l) E_BLOCK_BUFF_SIZE)))
           else if l_cap l <? size then go (bail l E_BUFF_LIMIT)
           else go (RSeq l size)
  | RSeq l size => go (RScan l size (m (CSeq (l_rb l))) (l_rb l) (l_grb l))
  | RScan l size sq e ge =>
      let stop := if calc_nodes size =? range_count n (l_rb l) e then RSize2 l e [] ge
                  else RTop (next_rb (with_rb l (l_tmo l) (or_ret (l_ret l) E_BLOCK_NODE_NUM))) in
      if e =? l_w l then go stop
      else if negb (m (CSeq e) =? sq) then go stop
      else if e =? l_rb l then go (RClr l size sq e ge) else go (RScanF l size sq e ge)
  | RScanF l size sq e ge =>
      let stop := if calc_nodes size =? range_count n (l_rb l) e then RSize2 l e [] ge
                  else RTop (next_rb (with_rb l (l_tmo l) (or_ret (l_ret l) E_BLOCK_NODE_NUM))) in
      if N.testbit (m (CFlag e)) 1 then go stop else go (RClr l size sq e ge)
  | RClr l size sq e ge =>
      Some (with_rd (with_mem s (cell_upd m (CFlag e) 0)) (RScan l size sq (next_index n e 1) (ge + 1)))
  | RSize2 l e acc ge =>
      if (length acc <? 8)%nat then go (RSize2 l e (acc ++ [m (CData (256 * l_rb l + N.of_nat (length acc)))]) ge)
      else go (RCopy l (bytes_word acc) e [] ge)
  | RCopy l size e acc ge =>
      if blen acc <? size then go (RCopy l size e (acc ++ [m (CData (payload_addr n (l_rb l) (blen acc)))]) ge)
      else Some (with_rd (with_fft s 0) (RHash l acc e [] ge))
  | RHash l out e acc ge =>
      if (length acc <? 8)%nat then go (RHash l out e (acc ++ [m (CData (256 * l_rb l + 8 + N.of_nat (length acc)))]) ge)
      else go (RStore (l_ori l) e (if fast_check hash out =? bytes_word acc then OK else E_BAD_DATA) out ge)
  | RStore ori e code out ge =>
      Some (with_result s (if ori =? e then s_r s else e) ge (code, out))
  end.

(** Schedules: a new [mem_send] call (with its retry budget), a step of a writer, a
    new [mem_recv] call, a step of the reader. *)
Inductive label := LSend (m : bytes) (tries : nat) | LW (i : nat) (weak : bool) | LRecv (cap : N) | LR (now : N).
Definition step (l : label) (s : st) : option st :=
  match l with
  | LSend m tries => Some (with_ops s (s_ops s ++ [{| o_msg := m; o_left := tries; o_pc := WFetch |}]))
  | LW i weak => wstep i weak s
  | LRecv cap => match s_rd s with RIdle => Some (with_rd s (RLoadW cap (s_r s))) | _ => None end
  | LR now => rstep now s
  end.
Fixpoint exec (ls : list label) (s : st) : option st :=
  match ls with
  | [] => Some s
  | l :: r => match step l s with Some s' => exec r s' | None => None end
  end.
End Conf.
