(** The header of a memory channel and where its parts lie
    (src/channel_mem.cpp 92-162, 182-201, 282-324, 456-534).  Offsets are relative to the start of
    the buffer.  [ATBUS_MACRO_DATA_NODE_SIZE] is 256 and [ATBUS_MACRO_DATA_ALIGN_SIZE] 16
    (project/cmake/ProjectBuildOption.cmake 12-17); [size_t] has 8 bytes. *)
From Verif Require Import Base MemSpec Address Mem.
Local Open Scope N_scope.

Definition E_BUFFER_INVALID : Z := (-102)%Z.
Definition E_VERSION_CH : Z := (-106)%Z.
Definition E_ALIGN_CH : Z := (-107)%Z.
Definition E_HOST_CH : Z := (-108)%Z.
(** [mem_channel_head_align] (143-147), [mem_block] (182-195). *)
Definition head_size : N := 4096.
Definition nhead_size : N := 16.
Definition block_head : N := 16.
Definition align : N := 16.

(** The fields of [mem_channel] (93-124) that [mem_attach] reads or that locate the parts;
    the first eight bytes of [node_magic]. *)
Record hdr := { o_magic : bytes; o_version : N; o_align : N; o_host : N; o_size : N; o_power : N; o_count : N;
  o_chan : N; o_head : N; o_data : N; o_end : N }.
Definition hdr0 : hdr := {| o_magic := [0;0;0;0;0;0;0;0]; o_version := 0; o_align := 0; o_host := 0; o_size := 0; o_power := 0;
  o_count := 0; o_chan := 0; o_head := 0; o_data := 0; o_end := 0 |}.
Definition w_size v h := {| o_magic := o_magic h; o_version := o_version h; o_align := o_align h; o_host := o_host h; o_size := v; o_power := o_power h;
  o_count := o_count h; o_chan := o_chan h; o_head := o_head h; o_data := o_data h; o_end := o_end h |}.
Definition w_power v h := {| o_magic := o_magic h; o_version := o_version h; o_align := o_align h; o_host := o_host h; o_size := o_size h; o_power := v;
  o_count := o_count h; o_chan := o_chan h; o_head := o_head h; o_data := o_data h; o_end := o_end h |}.
Definition w_count v h := {| o_magic := o_magic h; o_version := o_version h; o_align := o_align h; o_host := o_host h; o_size := o_size h; o_power := o_power h;
  o_count := v; o_chan := o_chan h; o_head := o_head h; o_data := o_data h; o_end := o_end h |}.
Definition w_chan v h := {| o_magic := o_magic h; o_version := o_version h; o_align := o_align h; o_host := o_host h; o_size := o_size h; o_power := o_power h;
  o_count := o_count h; o_chan := v; o_head := o_head h; o_data := o_data h; o_end := o_end h |}.
Definition w_head v h := {| o_magic := o_magic h; o_version := o_version h; o_align := o_align h; o_host := o_host h; o_size := o_size h; o_power := o_power h;
  o_count := o_count h; o_chan := o_chan h; o_head := v; o_data := o_data h; o_end := o_end h |}.
Definition w_data v h := {| o_magic := o_magic h; o_version := o_version h; o_align := o_align h; o_host := o_host h; o_size := o_size h; o_power := o_power h;
  o_count := o_count h; o_chan := o_chan h; o_head := o_head h; o_data := v; o_end := o_end h |}.
Definition w_end v h := {| o_magic := o_magic h; o_version := o_version h; o_align := o_align h; o_host := o_host h; o_size := o_size h; o_power := o_power h;
  o_count := o_count h; o_chan := o_chan h; o_head := o_head h; o_data := o_data h; o_end := v |}.
Definition w_version v h := {| o_magic := o_magic h; o_version := v; o_align := o_align h; o_host := o_host h; o_size := o_size h; o_power := o_power h;
  o_count := o_count h; o_chan := o_chan h; o_head := o_head h; o_data := o_data h; o_end := o_end h |}.
Definition w_align v h := {| o_magic := o_magic h; o_version := o_version h; o_align := v; o_host := o_host h; o_size := o_size h; o_power := o_power h;
  o_count := o_count h; o_chan := o_chan h; o_head := o_head h; o_data := o_data h; o_end := o_end h |}.
Definition w_host v h := {| o_magic := o_magic h; o_version := o_version h; o_align := o_align h; o_host := v; o_size := o_size h; o_power := o_power h;
  o_count := o_count h; o_chan := o_chan h; o_head := o_head h; o_data := o_data h; o_end := o_end h |}.
Definition w_magic (i : nat) (v : N) h := {| o_magic := firstn i (o_magic h) ++ v :: skipn (S i) (o_magic h); o_version := o_version h; o_align := o_align h;
  o_host := o_host h; o_size := o_size h; o_power := o_power h; o_count := o_count h; o_chan := o_chan h; o_head := o_head h; o_data := o_data h; o_end := o_end h |}.

(** "ATBUSMEM" (39). *)
Definition name : bytes := [65; 84; 66; 85; 83; 77; 69; 77].
(** The loop that takes the logarithm (494-501). *)
Fixpoint power_loop (fuel : nat) (size pow : N) : N :=
  match fuel with
  | O => pow
  | S f => if 1 <? size then power_loop f (size / 2) (pow + 1) else pow
  end.
(** [mem_init] (484-534) after the length test and the [memset]: its stores, in the order
    of the program.  The counter of the logarithm is stored once, with its last value; the
    configuration is left out; [memcpy] of the name stores byte by byte. *)
Definition stores (len : N) : list (hdr -> hdr) :=
  [w_size node_sz; fun h => w_power (power_loop 64 (o_size h) 0) h;
   fun h => w_count ((len - head_size) / (o_size h + nhead_size)) h;
   w_chan 0; w_head head_size; fun h => w_data (o_head h + o_count h * nhead_size) h; fun h => w_end (o_data h + o_count h * o_size h) h] ++
  map (fun p => w_magic (fst p) (snd p)) (combine (seq 0 8) name) ++
  [w_version 2; w_align align; w_host 8].
Definition put (h : hdr) (l : list (hdr -> hdr)) : hdr := fold_left (fun h f => f h) l h.
(** The shortest buffer (458, 486). *)
Definition least : N := head_size + node_sz + nhead_size.
Definition init_hdr (len : N) : Z * option hdr :=
  if len <? least then (E_SIZE_TOO_SMALL, None) else (OK, Some (put hdr0 (stores len))).
(** [mem_attach] (456-482) on a buffer that begins with the header [h]; letters of the name
    are compared regardless of case. *)
Definition attach (len : N) (h : hdr) : Z :=
  if len <? least then E_SIZE_TOO_SMALL
  else if negb (prefix_nocase name (o_magic h)) then E_BUFFER_INVALID
  else if negb (o_version h =? 2) then E_VERSION_CH
  else if negb (o_align h =? align) then E_ALIGN_CH
  else if negb (o_host h =? 8) then E_HOST_CH
  else OK.

(** [mem_get_node_head] (282-302): where the head and the data of node [i] begin, and how much
    room there is from there; [mem_get_block_head] (309-324): the same for the data of a block
    that begins at node [i]. *)
Definition node_head_at (h : hdr) (i : N) : N := o_chan h + (o_head h - o_chan h) + i * nhead_size.
Definition node_data_at (h : hdr) (i : N) : N := o_chan h + o_data h - o_chan h + i * node_sz.
Definition node_room (h : hdr) (i : N) : N := o_end h - o_chan h + o_chan h - node_data_at h i.
Definition block_data_at (h : hdr) (i : N) : N := node_data_at h i + block_head.
Definition block_room (h : hdr) (i : N) : N := o_end h - o_chan h + o_chan h - node_data_at h i - block_head.
