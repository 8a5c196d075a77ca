(** How a node configures its stream channels: [node::get_iostream_conf]
    (atbus_node.cpp 2358-2380) and what the channel makes of it. *)
From Verif Require Import Base Vint Mem MemSpec IoRecv IoWrite IoWriteSpec IoWriteS IoWriteSSpec BufferSpec Buffer.
Local Open Scope N_scope.

(** Fields of [node::conf_t] used here (libatbus.h): msg_size, send_buffer_size,
    send_buffer_number. *)
Record nconf := { n_msg : N; n_size : N; n_num : nat }.
(** [node::default_conf] (atbus_node.cpp 151-158) with the values of
    project/cmake/ProjectBuildOption.cmake 34-51. *)
Definition default_nconf : nconf := {| n_msg := 262144; n_size := 2097152; n_num := 0 |}.

(** Fields of [io_stream_conf]: recv_buffer_limit_size, recv_buffer_max_size,
    send_buffer_static, send_buffer_max_size, send_buffer_limit_size and the three
    max_read_*_count.  recv_buffer_static stays 0. *)
Record iconf := { i_recv_limit : N; i_recv_max : N; i_static : nat; i_send_max : N; i_send_limit : N;
                  i_eagain : N; i_sizes : N; i_hashes : N }.

(** ATBUS_MACRO_MAX_FRAME_HEADER (ProjectBuildOption.cmake 37). *)
Definition frame_header : N := 1024.

(** [node::get_iostream_conf] 2363-2377 on top of [io_stream_init_configure]
    (channel_io_stream.cpp 195-222); all sums are 64-bit. *)
Definition stream_conf (x : nconf) : iconf :=
  {| i_recv_limit := wrap64 (n_msg x + frame_header);
     i_recv_max := wrap64 (n_msg x + n_msg x + frame_header + 1024);
     i_static := n_num x; i_send_max := n_size x;
     i_send_limit := wrap64 (n_msg x + frame_header + padding_size (uvw + 4 + 16));
     i_eagain := 256; i_sizes := 10; i_hashes := 10 |}.

(** The limits used by the receiver of a connection (io_stream_make_connection 766-770,
    io_stream_on_recv_read_fn). *)
Definition receiver (c : iconf) : rcfg :=
  {| c_limit := i_recv_limit c; c_max := i_recv_max c; c_eagain := i_eagain c; c_size := i_sizes c; c_hash := i_hashes c |}.

(** The sender of a connection: [io_stream_make_connection] 772-775 takes a fixed area when
    both send_buffer_max_size and send_buffer_static are set. *)
Inductive sx := SDyn (s : wx) | SFix (s : vx).
Definition sender (c : iconf) : sx :=
  if (0 <? i_send_max c) && (0 <? i_static c)%nat then SFix (v_init (i_send_max c) (i_static c)) else SDyn (w_init (i_send_max c)).
Definition s_run (c : iconf) (hash : bytes -> N) (s : sx) (es : list wev) : wres (sx * list wout) :=
  match s with
  | SDyn w => match w_run (i_send_limit c) hash w es with Ok (w', t) => Ok (SDyn w', t) | Crash => Crash end
  | SFix v => match v_run (i_send_limit c) hash v es with Ok (v', t) => Ok (SFix v', t) | Crash => Crash end
  end.
Definition s_legal (c : iconf) (hash : bytes -> N) (s : sx) (es : list wev) : Prop :=
  match s with SDyn w => wlegal (i_send_limit c) hash w es | SFix v => vlegal (i_send_limit c) hash v es end.
Definition s_writing (s : sx) : bool := match s with SDyn w => w_writing w | SFix v => v_writing v end.
Definition s_st (s : sx) : wstat := match s with SDyn w => w_st w | SFix v => v_st v end.

(** What [msg_handler::send_msg] lets through (atbus_msg_handler.cpp 408). *)
Definition sendable (x : nconf) (p : bytes) : Prop := blen p <= n_msg x + frame_header.
