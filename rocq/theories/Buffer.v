(** Buffer manager: src/detail/buffer.cpp, classes buffer_block and
    buffer_manager.  Release build: the debug fill in [destroy] (174-177) is not
    modelled; the conditions of all [assert]s are returned as a boolean instead. *)
From Verif Require Import Base BufferSpec.
Local Open Scope N_scope.

(** [padding_size] / [head_size] / [full_size] (buffer.cpp 184-195) with
    ATBUS_MACRO_DATA_ALIGN_SIZE = 16 and sizeof(buffer_block) = 24. *)
Definition align_size : N := 16.
Definition block_sizeof : N := 24.
Definition padding_size (s : N) : N :=
  let pl := s mod align_size in
  if pl =? 0 then s else wrap64 (s + align_size - pl).
Definition head_size : N := padding_size block_sizeof.
Definition full_size (s : N) : N := wrap64 (head_size + padding_size s).

(** [buffer_manager::limit_t] (buffer.h 117-123). *)
Record limit := { cost_number : N; cost_size : N; limit_number : N; limit_size : N }.

(** Checks at the start of [push_back]/[push_front] (253-260, 272-279) and of the
    non-empty branch of [merge_back]/[merge_front] (303-306, 320-323); the sum is
    size_t arithmetic and wraps. *)
Definition number_blocked (l : limit) : bool := (0 <? limit_number l) && (limit_number l <=? cost_number l).
Definition size_blocked (l : limit) (s : N) : bool :=
  (0 <? limit_size l) && (limit_size l <? wrap64 (cost_size l + s)).

(** [++cost_number_; cost_size_ += s] (263-266). *)
Definition charge (l : limit) (s : N) : limit :=
  {| cost_number := wrap64 (cost_number l + 1); cost_size := wrap64 (cost_size l + s);
     limit_number := limit_number l; limit_size := limit_size l |}.
(** [cost_size_ += s] (309-311). *)
Definition charge_size (l : limit) (s : N) : limit :=
  {| cost_number := cost_number l; cost_size := wrap64 (cost_size l + s);
     limit_number := limit_number l; limit_size := limit_size l |}.
(** [if (cost_number_ > 0) --cost_number_] (535-537). *)
Definition drop_one (l : limit) : limit :=
  {| cost_number := if 0 <? cost_number l then cost_number l - 1 else cost_number l;
     cost_size := cost_size l; limit_number := limit_number l; limit_size := limit_size l |}.
(** "fix limit" at the end of the pop functions (541-550, 587-596, 846-852). *)
Definition fix_limit (now_empty : bool) (l : limit) (s : N) : limit :=
  if now_empty
  then {| cost_number := 0; cost_size := 0; limit_number := limit_number l; limit_size := limit_size l |}
  else {| cost_number := cost_number l;
          cost_size := if s <=? cost_size l then cost_size l - s else 0;
          limit_number := limit_number l; limit_size := limit_size l |}.

(* ------------------------------------------------------------------------- *)
(** * Dynamic mode *)

(** A heap block: [size_], [used_] and the bytes behind [pointer_]. *)
Record dblock := { d_size : N; d_used : N; d_bytes : bytes }.
Record dmgr := { d_list : list dblock; d_lim : limit }.

(** [buffer_block::size] (110) and [pop] (114-122). *)
Definition d_left (b : dblock) : N := d_size b - d_used b.
Definition d_pop (b : dblock) (s : N) : dblock :=
  if d_size b <? wrap64 (d_used b + s)
  then {| d_size := d_size b; d_used := d_size b; d_bytes := d_bytes b |}
  else {| d_size := d_size b; d_used := wrap64 (d_used b + s); d_bytes := d_bytes b |}.

(** [buffer_manager()] + [set_limit] (199-216) in dynamic mode. *)
Definition d_init (max_size max_number : N) : dmgr :=
  {| d_list := []; d_lim := {| cost_number := 0; cost_size := 0; limit_number := max_number; limit_size := max_size |} |}.

(** [buffer_block::malloc] (127-138) followed by the caller filling the block with
    [d].  [ok] is the answer of the allocator. *)
Definition d_malloc (ok : bool) (d : bytes) : option dblock :=
  if ok then Some {| d_size := N.of_nat (length d); d_used := 0; d_bytes := d |} else None.

(** [dynamic_push_back] (789-800) inside [push_back] (252-269). *)
Definition d_push_back (ok : bool) (m : dmgr) (d : bytes) : Z * dmgr :=
  let s := N.of_nat (length d) in
  if number_blocked (d_lim m) then (BUFF_LIMIT, m) else
  if size_blocked (d_lim m) s then (BUFF_LIMIT, m) else
  match d_malloc ok d with
  | None => (MALLOC, m)
  | Some b => (SUCCESS, {| d_list := d_list m ++ [b]; d_lim := charge (d_lim m) s |})
  end.

(** [dynamic_push_front] (802-813) inside [push_front] (271-288). *)
Definition d_push_front (ok : bool) (m : dmgr) (d : bytes) : Z * dmgr :=
  let s := N.of_nat (length d) in
  if number_blocked (d_lim m) then (BUFF_LIMIT, m) else
  if size_blocked (d_lim m) s then (BUFF_LIMIT, m) else
  match d_malloc ok d with
  | None => (MALLOC, m)
  | Some b => (SUCCESS, {| d_list := b :: d_list m; d_lim := charge (d_lim m) s |})
  end.

(** Common part of [dynamic_pop_back]/[dynamic_pop_front] (815-877) on the selected
    block: the clamped count, the surviving block if any. *)
Definition d_pop_block (b : dblock) (s : N) (fr : bool) : N * option dblock :=
  let s := if d_left b <? s then d_left b else s in
  let b' := d_pop b s in
  (s, if fr && (d_left b' <=? 0) then None else Some b').

(** [dynamic_pop_back] (815-845). *)
Definition d_pop_back (m : dmgr) (s : N) (fr : bool) : Z * dmgr :=
  match last_split (d_list m) with
  | None => (NO_DATA, m)
  | Some (r, b) =>
      let (s, k) := d_pop_block b s fr in
      let l := match k with None => r | Some b' => r ++ [b'] end in
      let lim := match k with None => drop_one (d_lim m) | Some _ => d_lim m end in
      (SUCCESS, {| d_list := l; d_lim := fix_limit (match l with [] => true | _ => false end) lim s |})
  end.

(** [dynamic_pop_front] (847-877). *)
Definition d_pop_front (m : dmgr) (s : N) (fr : bool) : Z * dmgr :=
  match d_list m with
  | [] => (NO_DATA, m)
  | b :: r =>
      let (s, k) := d_pop_block b s fr in
      let l := match k with None => r | Some b' => b' :: r end in
      let lim := match k with None => drop_one (d_lim m) | Some _ => d_lim m end in
      (SUCCESS, {| d_list := l; d_lim := fix_limit (match l with [] => true | _ => false end) lim s |})
  end.

(** Body shared by [dynamic_merge_back]/[dynamic_merge_front] (879-933): a new block
    of [raw_size + s] bytes, old bytes copied to its front, the caller's bytes after
    them, then [res->pop(raw_size - size)].  [s == 0] returns early (880-882). *)
Definition d_merge_block (ok : bool) (b : dblock) (d : bytes) : option dblock :=
  match d with
  | [] => Some b
  | _ => match d_malloc ok (d_bytes b ++ d) with
         | None => None
         | Some res => Some (d_pop {| d_size := wrap64 (N.of_nat (length d) + d_size b); d_used := 0; d_bytes := d_bytes res |}
                                   (d_size b - d_left b))
         end
  end.

(** [merge_back] (298-314) with [dynamic_merge_back] (879-905). *)
Definition d_merge_back (ok : bool) (m : dmgr) (d : bytes) : Z * dmgr :=
  let s := N.of_nat (length d) in
  match last_split (d_list m) with
  | None => d_push_back ok m d
  | Some (r, b) =>
      if size_blocked (d_lim m) s then (BUFF_LIMIT, m) else
      match d_merge_block ok b d with
      | None => (MALLOC, m)
      | Some b' => (SUCCESS, {| d_list := r ++ [b']; d_lim := charge_size (d_lim m) s |})
      end
  end.

(** [merge_front] (316-332) with [dynamic_merge_front] (907-933). *)
Definition d_merge_front (ok : bool) (m : dmgr) (d : bytes) : Z * dmgr :=
  let s := N.of_nat (length d) in
  match d_list m with
  | [] => d_push_front ok m d
  | b :: r =>
      if size_blocked (d_lim m) s then (BUFF_LIMIT, m) else
      match d_merge_block ok b d with
      | None => (MALLOC, m)
      | Some b' => (SUCCESS, {| d_list := b' :: r; d_lim := charge_size (d_lim m) s |})
      end
  end.

(** [front]/[back] (218-250): popped count and the bytes from [data()] on. *)
Definition d_view (b : dblock) : nat * bytes :=
  (N.to_nat (d_size b - d_left b), skipn (N.to_nat (d_used b)) (d_bytes b)).

(** One public call; [ok] is the allocator's answer should it be asked. *)
Definition d_step (ok : bool) (m : dmgr) (o : bop) : bout * dmgr :=
  match o with
  | PushBack d => let (c, m') := d_push_back ok m d in (Code c, m')
  | PushFront d => let (c, m') := d_push_front ok m d in (Code c, m')
  | MergeBack d => let (c, m') := d_merge_back ok m d in (Code c, m')
  | MergeFront d => let (c, m') := d_merge_front ok m d in (Code c, m')
  | PopBack s fr => let (c, m') := d_pop_back m s fr in (Code c, m')
  | PopFront s fr => let (c, m') := d_pop_front m s fr in (Code c, m')
  | Front => (View (match d_list m with [] => None | b :: _ => Some (d_view b) end), m)
  | Back => (View (match last_split (d_list m) with None => None | Some (_, b) => Some (d_view b) end), m)
  end.

(* ------------------------------------------------------------------------- *)
(** * Static (ring) mode *)

(** Content of the one allocated area.  A block header occupies 24 bytes; writing
    anything into it destroys it, reading a destroyed header is undefined. *)
Record hdr := { h_size : N; h_used : N; h_ptr : N }.
Inductive cell := Uninit | Dat (b : byte) | HdrStart (h : hdr) | HdrRest.
Definition memory := N -> cell.

Definition is_rest (c : cell) : bool := match c with HdrRest => true | _ => false end.

(** Read the buffer_block object at offset [a]. *)
Definition read_hdr (m : memory) (a : N) : option hdr :=
  match m a with
  | HdrStart h => if forallb (fun i => is_rest (m (a + N.of_nat i))) (seq 1 23) then Some h else None
  | _ => None
  end.

(** Write a buffer_block object at offset [a] of an area of [sz] bytes. *)
Definition write_hdr (sz : N) (m : memory) (a : N) (h : hdr) : option memory :=
  if a + block_sizeof <=? sz
  then Some (fun x => if x =? a then HdrStart h
                      else if (a <? x) && (x <? a + block_sizeof) then HdrRest else m x)
  else None.

(** The caller stores [d] at offset [p]. *)
Definition write_data (sz : N) (m : memory) (p : N) (d : bytes) : option memory :=
  if p + N.of_nat (length d) <=? sz
  then Some (fun x => if (p <=? x) && (x <? p + N.of_nat (length d))
                      then Dat (nth (N.to_nat (x - p)) d 0) else m x)
  else None.

(** [memmove]: [n] cells from [src] to [dst], both inside the area. *)
Definition move_mem (sz : N) (m : memory) (dst src n : N) : option memory :=
  if (dst + n <=? sz) && (src + n <=? sz)
  then Some (fun x => if (dst <=? x) && (x <? dst + n) then m (src + (x - dst)) else m x)
  else None.

(** [memcpy]: additionally the ranges must not overlap. *)
Definition copy_mem (sz : N) (m : memory) (dst src n : N) : option memory :=
  if (n =? 0) || (dst + n <=? src) || (src + n <=? dst) then move_mem sz m dst src n else None.

(** Read [n] data bytes; undefined if something else is stored there. *)
Fixpoint read_data (m : memory) (p : N) (n : nat) : option bytes :=
  match n with
  | O => Some []
  | S k => match m p, read_data m (p + 1) k with
           | Dat b, Some r => Some (b :: r)
           | _, _ => None
           end
  end.

(** [static_buffer_t] (buffer.h 231-238).  Addresses are offsets from [buffer_];
    [circ] is circle_index_ with [csz] entries, [None] = NULL. *)
Record sbuf := { sb_size : N; sb_head : nat; sb_tail : nat; sb_csz : nat; sb_circ : nat -> option N; sb_mem : memory }.
Record smgr := { s_buf : sbuf; s_lim : limit }.

Definition upd {A} (f : nat -> A) (k : nat) (v : A) : nat -> A := fun i => if Nat.eqb i k then v else f i.
Definition set_circ b k v := {| sb_size := sb_size b; sb_head := sb_head b; sb_tail := sb_tail b; sb_csz := sb_csz b;
                                sb_circ := upd (sb_circ b) k v; sb_mem := sb_mem b |}.
Definition set_head b h := {| sb_size := sb_size b; sb_head := h; sb_tail := sb_tail b; sb_csz := sb_csz b;
                              sb_circ := sb_circ b; sb_mem := sb_mem b |}.
Definition set_tail b t := {| sb_size := sb_size b; sb_head := sb_head b; sb_tail := t; sb_csz := sb_csz b;
                              sb_circ := sb_circ b; sb_mem := sb_mem b |}.
Definition set_mem b m := {| sb_size := sb_size b; sb_head := sb_head b; sb_tail := sb_tail b; sb_csz := sb_csz b;
                             sb_circ := sb_circ b; sb_mem := m |}.

(** [set_mode] (959-975) with non-zero arguments and a successful malloc. *)
Definition s_init (max_size : N) (max_number : nat) : smgr :=
  {| s_buf := {| sb_size := padding_size (wrap64 (max_size + align_size)); sb_head := 0; sb_tail := 0;
                 sb_csz := max_number + 1; sb_circ := fun _ => None; sb_mem := fun _ => Uninit |};
     s_lim := {| cost_number := 0; cost_size := 0; limit_number := N.of_nat max_number; limit_size := max_size |} |}.

Notation "'let*' x ':=' e 'in' k" := (match e with Some x => k | None => None end)
  (at level 200, x pattern, e at level 100, k at level 200).

(** [buffer_offset] (41-45). *)
Definition buffer_offset (l r : N) : N := if l <? r then r - l else l - r.

(** [buffer_block::create] (149-168).  Outer [None]: undefined (header written
    outside the area); inner [None]: NULL returned; the boolean is the assert. *)
Definition create (sz : N) (m : memory) (p s bs : N) : option (option (N * memory * bool)) :=
  let fs := full_size bs in
  if s <? fs then Some None
  else let* m' := write_hdr sz m p {| h_size := bs; h_used := 0; h_ptr := p + head_size |} in
       Some (Some (p + fs, m', p + head_size + bs <=? p + fs)).

(** Result of a static operation: return code, returned pointer, new state, and
    whether every [assert] executed on the way holds. *)
Record sres := { r_code : Z; r_ptr : option N; r_buf : sbuf; r_ok : bool }.
Definition mkres c p b k := {| r_code := c; r_ptr := p; r_buf := b; r_ok := k |}.

(** [add_tail(); assign_tail(next_free)] (364-366): publish the block at the tail. *)
Definition publish_tail (b : sbuf) (next_free : N) (k : bool) : option sres :=
  let* a := sb_circ b (sb_tail b) in
  let* h := read_hdr (sb_mem b) a in
  let b := set_tail b ((sb_tail b + 1) mod sb_csz b)%nat in
  Some (mkres SUCCESS (Some (h_ptr h + h_used h)) (set_circ b (sb_tail b) (Some next_free)) k).

(** "empty init" (372-379 and 449-456). *)
Definition empty_init (b : sbuf) : sbuf :=
  match sb_circ b (sb_head b), sb_circ b (sb_tail b) with
  | Some _, Some _ => b
  | _, _ => set_circ (set_head (set_tail b 0) 0) 0 (Some 0)
  end.

(** [static_push_back] (354-430). *)
Definition static_push_back (b : sbuf) (s : N) : option sres :=
  let k0 := Nat.leb 2 (sb_csz b) in
  if Nat.eqb ((sb_tail b + 1) mod sb_csz b) (sb_head b) then Some (mkres BUFF_LIMIT None b k0) else
  let fs := full_size s in
  let b := empty_init b in
  let* head := sb_circ b (sb_head b) in
  let* tail := sb_circ b (sb_tail b) in
  if head <=? tail then
    let free_len := buffer_offset tail (sb_size b) in
    if fs <=? free_len then
      let* c := create (sb_size b) (sb_mem b) tail free_len s in
      match c with
      | None => Some (mkres MALLOC None b k0)
      | Some (next_free, m, k1) =>
          publish_tail (set_mem b m) next_free (k0 && k1 && (next_free <=? sb_size b))
      end
    else
      let free_len := buffer_offset 0 head in
      if free_len <=? fs then Some (mkres BUFF_LIMIT None b k0) else
      let* c := create (sb_size b) (sb_mem b) 0 free_len s in
      match c with
      | None => Some (mkres MALLOC None b k0)
      | Some (next_free, m, k1) =>
          publish_tail (set_circ (set_mem b m) (sb_tail b) (Some 0)) next_free (k0 && k1 && (next_free <=? head))
      end
  else
    let free_len := buffer_offset tail head in
    if free_len <=? fs then Some (mkres BUFF_LIMIT None b k0) else
    let* c := create (sb_size b) (sb_mem b) tail free_len s in
    match c with
    | None => Some (mkres MALLOC None b k0)
    | Some (next_free, m, k1) => publish_tail (set_mem b m) next_free (k0 && k1 && (next_free <=? head))
    end.

(** [sub_head(d)] (442-445). *)
Definition publish_head (b : sbuf) (start : N) (k : bool) : option sres :=
  let b := set_head b ((sb_head b + sb_csz b - 1) mod sb_csz b)%nat in
  let b := set_circ b (sb_head b) (Some start) in
  let* h := read_hdr (sb_mem b) start in
  Some (mkres SUCCESS (Some (h_ptr h + h_used h)) b k).

(** [static_push_front] (432-512). *)
Definition static_push_front (b : sbuf) (s : N) : option sres :=
  let k0 := Nat.leb 2 (sb_csz b) in
  if Nat.eqb ((sb_tail b + 1) mod sb_csz b) (sb_head b) then Some (mkres BUFF_LIMIT None b k0) else
  let fs := full_size s in
  let b := empty_init b in
  let* head := sb_circ b (sb_head b) in
  let* tail := sb_circ b (sb_tail b) in
  if head <=? tail then
    let free_len := buffer_offset head 0 in
    if fs <=? free_len then
      let start := 0 + (free_len - fs) in
      let* c := create (sb_size b) (sb_mem b) start fs s in
      match c with
      | None => Some (mkres MALLOC None b k0)
      | Some (next_free, m, k1) => publish_head (set_mem b m) start (k0 && k1 && (head =? next_free))
      end
    else
      let free_len := buffer_offset tail (sb_size b) in
      if free_len <=? fs then Some (mkres BUFF_LIMIT None b k0) else
      let start := tail + (free_len - fs) in
      let* c := create (sb_size b) (sb_mem b) start fs s in
      match c with
      | None => Some (mkres MALLOC None b k0)
      | Some (next_free, m, k1) => publish_head (set_mem b m) start (k0 && k1 && (next_free =? sb_size b))
      end
  else
    let free_len := buffer_offset tail head in
    if free_len <=? fs then Some (mkres BUFF_LIMIT None b k0) else
    let start := tail + (free_len - fs) in
    let* c := create (sb_size b) (sb_mem b) start fs s in
    match c with
    | None => Some (mkres MALLOC None b k0)
    | Some (next_free, m, k1) => publish_head (set_mem b m) start (k0 && k1 && (next_free =? head))
    end.

(** [buffer_block::pop] (114-122) on the header at [a]. *)
Definition pop_hdr (h : hdr) (s : N) : hdr :=
  if h_size h <? wrap64 (h_used h + s)
  then {| h_size := h_size h; h_used := h_size h; h_ptr := h_ptr h |}
  else {| h_size := h_size h; h_used := wrap64 (h_used h + s); h_ptr := h_ptr h |}.
Definition h_left (h : hdr) : N := h_size h - h_used h.

Definition static_empty (b : sbuf) : bool := Nat.eqb (sb_head b) (sb_tail b).
Definition tail_index (b : sbuf) : nat := ((sb_tail b + sb_csz b - 1) mod sb_csz b)%nat.

(** Reset to the initial state once empty (541-548, 587-594). *)
Definition reset_if_empty (b : sbuf) : sbuf :=
  if static_empty b then set_circ (set_tail (set_head b 0) 0) 0 (Some 0) else b.

(** [static_pop_back] (514-556). *)
Definition static_pop_back (m : smgr) (s : N) (fr : bool) : option (Z * smgr) :=
  let b := s_buf m in
  if static_empty b then Some (NO_DATA, m) else
  let ti := tail_index b in
  let* a := sb_circ b ti in
  let* h := read_hdr (sb_mem b) a in
  let s := if h_left h <? s then h_left h else s in
  let h' := pop_hdr h s in
  let* mm := write_hdr (sb_size b) (sb_mem b) a h' in
  let b := set_mem b mm in
  let dead := fr && (h_left h' =? 0) in
  let b := if dead then set_tail (set_circ b (sb_tail b) None) ti else b in
  let lim := if dead then drop_one (s_lim m) else s_lim m in
  Some (SUCCESS, {| s_buf := reset_if_empty b; s_lim := fix_limit (static_empty b) lim s |}).

(** [static_pop_front] (558-602). *)
Definition static_pop_front (m : smgr) (s : N) (fr : bool) : option (Z * smgr) :=
  let b := s_buf m in
  if static_empty b then Some (NO_DATA, m) else
  let* a := sb_circ b (sb_head b) in
  let* h := read_hdr (sb_mem b) a in
  let s := if h_left h <? s then h_left h else s in
  let h' := pop_hdr h s in
  let* mm := write_hdr (sb_size b) (sb_mem b) a h' in
  let b := set_mem b mm in
  let dead := fr && (h_left h' =? 0) in
  let b := if dead then set_head (set_circ b (sb_head b) None) ((sb_head b + 1) mod sb_csz b)%nat else b in
  let lim := if dead then drop_one (s_lim m) else s_lim m in
  Some (SUCCESS, {| s_buf := reset_if_empty b; s_lim := fix_limit (static_empty b) lim s |}).

(** [static_merge_back] (604-684). *)
Definition static_merge_back (b : sbuf) (s : N) : option sres :=
  if s =? 0 then Some (mkres SUCCESS None b true) else
  match sb_circ b (sb_head b), sb_circ b (sb_tail b),
        (if static_empty b then None else sb_circ b (tail_index b)) with
  | Some head, Some tail, Some last =>
      let fs := padding_size s in
      let* lh := read_hdr (sb_mem b) last in
      if (head <=? tail) || (head <=? last) then
        let free_len := buffer_offset tail (sb_size b) in
        let k1 := (sb_size b =? free_len) || (h_ptr lh + padding_size (h_size lh) =? tail) in
        if (fs <=? free_len) && (head <=? tail) then
          let* m := write_hdr (sb_size b) (sb_mem b) last
                      {| h_size := wrap64 (h_size lh + s); h_used := h_used lh; h_ptr := h_ptr lh |} in
          let t' := last + full_size (wrap64 (h_size lh + s)) in
          Some (mkres SUCCESS (Some (h_ptr lh + h_size lh))
                      (set_circ (set_mem b m) (sb_tail b) (Some t')) (k1 && (t' <=? sb_size b)))
        else
          let free_len := buffer_offset 0 head in
          let new_block_sz := full_size (wrap64 (s + h_size lh)) in
          if free_len <=? new_block_sz then Some (mkres BUFF_LIMIT None b k1) else
          let* c := create (sb_size b) (sb_mem b) 0 free_len (wrap64 (s + h_size lh)) in
          match c with
          | None => Some (mkres MALLOC None b k1)
          | Some (next_free, m, k2) =>
              let b := set_circ (set_mem b m) (sb_tail b) (Some next_free) in
              let ti := tail_index b in
              let* rh := read_hdr (sb_mem b) 0 in
              let* lh2 := read_hdr (sb_mem b) last in
              let p := h_ptr rh + h_used rh + h_size lh2 in
              let b := set_circ b ti (Some 0) in
              let* m2 := copy_mem (sb_size b) (sb_mem b) (h_ptr rh + h_used rh) (h_ptr lh2) (h_size lh2) in
              let* m3 := write_hdr (sb_size b) m2 0 (pop_hdr rh (h_size lh2 - h_left lh2)) in
              Some (mkres SUCCESS (Some p) (set_mem b m3) (k1 && k2 && (next_free <? head)))
          end
      else
        let free_len := buffer_offset tail head in
        let k1 := (last + full_size (h_size lh) =? tail) in
        if free_len <=? fs then Some (mkres BUFF_LIMIT None b k1) else
        let* m := write_hdr (sb_size b) (sb_mem b) last
                    {| h_size := wrap64 (h_size lh + s); h_used := h_used lh; h_ptr := h_ptr lh |} in
        let t' := last + full_size (wrap64 (h_size lh + s)) in
        Some (mkres SUCCESS (Some (h_ptr lh + h_size lh))
                    (set_circ (set_mem b m) (sb_tail b) (Some t'))
                    (k1 && (t' <? head) && (t' =? tail + fs)))
  | _, _, _ => Some (mkres NO_DATA None b true)
  end.

(** "memory move" at the end of [static_merge_front] (760-766): the header was just
    created at [start]; move the old bytes there and publish. *)
Definition relocate_head (b : sbuf) (start : N) (old : hdr) (k : bool) : option sres :=
  let* nh := read_hdr (sb_mem b) start in
  let p := h_ptr nh + h_used nh + h_size old in
  let* m2 := move_mem (sb_size b) (sb_mem b) (h_ptr nh + h_used nh) (h_ptr old) (h_size old) in
  let* nh2 := read_hdr m2 start in
  let* m3 := write_hdr (sb_size b) m2 start (pop_hdr nh2 (h_size old - h_left old)) in
  Some (mkres SUCCESS (Some p) (set_circ (set_mem b m3) (sb_head b) (Some start)) k).

(** [static_merge_front] (686-771). *)
Definition static_merge_front (b : sbuf) (s : N) : option sres :=
  if s =? 0 then Some (mkres SUCCESS None b true) else
  match sb_circ b (sb_head b), sb_circ b (sb_tail b) with
  | Some head, Some tail =>
      let fs := padding_size s in
      let* old := read_hdr (sb_mem b) head in
      let new_s := wrap64 (s + h_size old) in
      let new_fs := full_size new_s in
      if head <=? tail then
        let free_len := buffer_offset head 0 in
        if fs <=? free_len then
          let start := 0 + (free_len - fs) in
          let* c := create (sb_size b) (sb_mem b) start new_fs new_s in
          match c with
          | None => Some (mkres MALLOC None b true)
          | Some (next_free, m, k1) =>
              relocate_head (set_mem b m) start old
                (k1 && (head + full_size (h_size old) =? next_free) && (full_size (h_size old) + fs =? new_fs))
          end
        else
          let free_len := buffer_offset tail (sb_size b) in
          if free_len <=? new_fs then Some (mkres BUFF_LIMIT None b true) else
          let start := tail + (free_len - new_fs) in
          let* c := create (sb_size b) (sb_mem b) start new_fs new_s in
          match c with
          | None => Some (mkres MALLOC None b true)
          | Some (next_free, m, k1) => relocate_head (set_mem b m) start old (k1 && (next_free =? sb_size b))
          end
      else
        let free_len := buffer_offset tail head in
        if free_len <=? fs then Some (mkres BUFF_LIMIT None b true) else
        let start := tail + (free_len - fs) in
        let* c := create (sb_size b) (sb_mem b) start new_fs new_s in
        match c with
        | None => Some (mkres MALLOC None b true)
        | Some (next_free, m, k1) =>
            relocate_head (set_mem b m) start old
              (k1 && (head + full_size (h_size old) =? next_free) && (full_size (h_size old) + fs =? new_fs))
        end
  | _, _ => Some (mkres NO_DATA None b true)
  end.

(** [push_back]/[push_front] (252-288) around a static push, followed by the caller
    filling the returned memory with [d]. *)
Definition s_push (f : sbuf -> N -> option sres) (m : smgr) (d : bytes) : option (Z * smgr * bool) :=
  let s := N.of_nat (length d) in
  if number_blocked (s_lim m) then Some (BUFF_LIMIT, m, true) else
  if size_blocked (s_lim m) s then Some (BUFF_LIMIT, m, true) else
  let* r := f (s_buf m) s in
  let lim := if (0 <=? r_code r)%Z then charge (s_lim m) s else s_lim m in
  match r_ptr r with
  | None => Some (r_code r, {| s_buf := r_buf r; s_lim := lim |}, r_ok r)
  | Some p => let* mm := write_data (sb_size (r_buf r)) (sb_mem (r_buf r)) p d in
              Some (r_code r, {| s_buf := set_mem (r_buf r) mm; s_lim := lim |}, r_ok r)
  end.

(** [merge_back]/[merge_front] (298-332) likewise. *)
Definition s_merge (f g : sbuf -> N -> option sres) (m : smgr) (d : bytes) : option (Z * smgr * bool) :=
  if static_empty (s_buf m) then s_push f m d else
  let s := N.of_nat (length d) in
  if size_blocked (s_lim m) s then Some (BUFF_LIMIT, m, true) else
  let* r := g (s_buf m) s in
  let lim := if (0 <=? r_code r)%Z then charge_size (s_lim m) s else s_lim m in
  match r_ptr r with
  | None => Some (r_code r, {| s_buf := r_buf r; s_lim := lim |}, r_ok r)
  | Some p => let* mm := write_data (sb_size (r_buf r)) (sb_mem (r_buf r)) p d in
              Some (r_code r, {| s_buf := set_mem (r_buf r) mm; s_lim := lim |}, r_ok r)
  end.

(** [front]/[back] (218-250) with [static_front]/[static_back] (336-352). *)
Definition s_view (m : smgr) (i : nat) : option (option (nat * bytes)) :=
  let b := s_buf m in
  if static_empty b then Some None else
  let* a := sb_circ b i in
  let* h := read_hdr (sb_mem b) a in
  let* l := read_data (sb_mem b) (h_ptr h + h_used h) (N.to_nat (h_left h)) in
  Some (Some (N.to_nat (h_size h - h_left h), l)).

(** One public call in static mode; [None] = undefined behaviour; the boolean tells
    whether a debug build would have passed all asserts. *)
Definition s_step (m : smgr) (o : bop) : option (bout * smgr * bool) :=
  match o with
  | PushBack d => let* (c, m', k) := s_push static_push_back m d in Some (Code c, m', k)
  | PushFront d => let* (c, m', k) := s_push static_push_front m d in Some (Code c, m', k)
  | MergeBack d => let* (c, m', k) := s_merge static_push_back static_merge_back m d in Some (Code c, m', k)
  | MergeFront d => let* (c, m', k) := s_merge static_push_front static_merge_front m d in Some (Code c, m', k)
  | PopBack s fr => let* (c, m') := static_pop_back m s fr in Some (Code c, m', true)
  | PopFront s fr => let* (c, m') := static_pop_front m s fr in Some (Code c, m', true)
  | Front => let* v := s_view m (sb_head (s_buf m)) in Some (View v, m, true)
  | Back => let* v := s_view m (tail_index (s_buf m)) in Some (View v, m, true)
  end.

Fixpoint s_run (m : smgr) (os : list bop) : option (list bout * smgr) :=
  match os with
  | [] => Some ([], m)
  | o :: r => let* (b, m1, _) := s_step m o in
              let* (bs, m2) := s_run m1 r in Some (b :: bs, m2)
  end.

(** A history of calls in dynamic mode; each carries the allocator's answer. *)
Fixpoint d_run (m : dmgr) (os : list (bool * bop)) : list bout * dmgr :=
  match os with
  | [] => ([], m)
  | (ok, o) :: r => let (b, m1) := d_step ok m o in
                    let (bs, m2) := d_run m1 r in (b :: bs, m2)
  end.

(** Whether every debug assert executed along the history holds. *)
Fixpoint s_asserts (m : smgr) (os : list bop) : option bool :=
  match os with
  | [] => Some true
  | o :: r => let* (_, m1, k) := s_step m o in
              let* k' := s_asserts m1 r in Some (k && k')
  end.
