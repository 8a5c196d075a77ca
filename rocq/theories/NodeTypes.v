(** State of one bus node: include/atbus_node.h, include/atbus_endpoint.h,
    include/atbus_connection.h and protocol/libatbus_protocol.proto. *)
From Verif Require Import Base Subnet Route.
Local Open Scope N_scope.

(** ** Messages *)
(** [access_data]: salt and keyed hash of a token. *)
Record key := { y_salt : N; y_h1 : N; y_h2 : N }.
(** [msg_head]. *)
Record head := { h_ver : Z; h_type : Z; h_ret : Z; h_seq : N; h_src : N }.
(** [forward_data]. *)
Record fwd := { w_from : N; w_to : N; w_router : list N; w_content : bytes; w_flags : N }.
(** [custom_command_data]. *)
Record cmd := { q_from : N; q_keys : list key; q_args : list bytes }.
(** [register_data]; [flags], [weight], [hash_code] and [channel tags] have no
    effect on the receiver and are left out. *)
Record reg := { r_id : N; r_pid : N; r_host : bytes; r_chans : list bytes;
                r_keys : list key; r_nets : list sconf }.
(** [msg_body]; the flag of a constructor says request (false) or response (true).
    [BOther] stands for the body numbers without a handler. *)
Inductive body :=
| BData (rsp : bool) (w : fwd)
| BCmd (rsp : bool) (q : cmd)
| BSync (rsp : bool)
| BReg (rsp : bool) (r : reg)
| BConn (addr : bytes)
| BPing (rsp : bool) (tp : N)
| BOther.
Record msg := { m_head : head; m_body : body }.

(** ** Configuration *)
(** [node::conf_t] (node.h 104-133) plus what the node reads from its environment:
    process id, host name, the keyed hash, the encoded size of a message, the size of a
    [custom_command_data] object, and what the custom command callback answers.  The integers that C++ declares signed are
    taken to be non-negative. *)
Record cfg := {
  x_nets : list sconf; x_parent : bytes; x_loop : N; x_ttl : N;
  x_ping : N; x_retry : N; x_first : N; x_tol : N; x_backlog : N; x_msg : N;
  x_tokens : list bytes; x_pid : N; x_host : bytes;
  x_mac : bytes -> N -> N * N; x_size : msg -> N; x_cmd : N; x_reply : list bytes -> list bytes }.

(** ** Objects *)
(** [connection::state_t]. *)
Inductive cst := Disconnected | Connecting | Handshaking | Connected | Disconnecting.
(** [conn_data_]: which of [free_fn], [push_fn], [proc_fn] are set.  Nothing; a
    listening socket (free); a socket (free, push); the receiving end of a memory or
    shared memory channel (free, proc); the sending end (free, push). *)
Inductive ckind := KNone | KListen | KSock | KRecv | KSend.
(** [node::state_t]. *)
Inductive nstate := NCreated | NInited | NLost | NConnecting | NRunning.

(** [connection]: state, address, endpoint it is bound to, transport, the flags
    REG_PROC, REG_FD, LISTEN_FD, ACCESS_SHARE_ADDR, ACCESS_SHARE_HOST, TEMPORARY,
    the fault counter and the (count, bytes) statistics. *)
Record conn := {
  k_st : cst;
  k_addr : bytes;
  k_bind : option N;
  k_kind : ckind;
  k_proc : bool;
  k_fd : bool;
  k_lfd : bool;
  k_sa : bool;
  k_sh : bool;
  k_tmp : bool;
  k_fault : N;
  k_start : N * N;
  k_ok : N * N;
  k_fail : N * N;
  k_pull : N * N }.
Definition set_k_st (v : cst) (c : conn) : conn := {| k_st := v; k_addr := k_addr c; k_bind := k_bind c; k_kind := k_kind c; k_proc := k_proc c; k_fd := k_fd c; k_lfd := k_lfd c; k_sa := k_sa c; k_sh := k_sh c; k_tmp := k_tmp c; k_fault := k_fault c; k_start := k_start c; k_ok := k_ok c; k_fail := k_fail c; k_pull := k_pull c |}.
Definition set_k_addr (v : bytes) (c : conn) : conn := {| k_st := k_st c; k_addr := v; k_bind := k_bind c; k_kind := k_kind c; k_proc := k_proc c; k_fd := k_fd c; k_lfd := k_lfd c; k_sa := k_sa c; k_sh := k_sh c; k_tmp := k_tmp c; k_fault := k_fault c; k_start := k_start c; k_ok := k_ok c; k_fail := k_fail c; k_pull := k_pull c |}.
Definition set_k_bind (v : option N) (c : conn) : conn := {| k_st := k_st c; k_addr := k_addr c; k_bind := v; k_kind := k_kind c; k_proc := k_proc c; k_fd := k_fd c; k_lfd := k_lfd c; k_sa := k_sa c; k_sh := k_sh c; k_tmp := k_tmp c; k_fault := k_fault c; k_start := k_start c; k_ok := k_ok c; k_fail := k_fail c; k_pull := k_pull c |}.
Definition set_k_kind (v : ckind) (c : conn) : conn := {| k_st := k_st c; k_addr := k_addr c; k_bind := k_bind c; k_kind := v; k_proc := k_proc c; k_fd := k_fd c; k_lfd := k_lfd c; k_sa := k_sa c; k_sh := k_sh c; k_tmp := k_tmp c; k_fault := k_fault c; k_start := k_start c; k_ok := k_ok c; k_fail := k_fail c; k_pull := k_pull c |}.
Definition set_k_proc (v : bool) (c : conn) : conn := {| k_st := k_st c; k_addr := k_addr c; k_bind := k_bind c; k_kind := k_kind c; k_proc := v; k_fd := k_fd c; k_lfd := k_lfd c; k_sa := k_sa c; k_sh := k_sh c; k_tmp := k_tmp c; k_fault := k_fault c; k_start := k_start c; k_ok := k_ok c; k_fail := k_fail c; k_pull := k_pull c |}.
Definition set_k_fd (v : bool) (c : conn) : conn := {| k_st := k_st c; k_addr := k_addr c; k_bind := k_bind c; k_kind := k_kind c; k_proc := k_proc c; k_fd := v; k_lfd := k_lfd c; k_sa := k_sa c; k_sh := k_sh c; k_tmp := k_tmp c; k_fault := k_fault c; k_start := k_start c; k_ok := k_ok c; k_fail := k_fail c; k_pull := k_pull c |}.
Definition set_k_lfd (v : bool) (c : conn) : conn := {| k_st := k_st c; k_addr := k_addr c; k_bind := k_bind c; k_kind := k_kind c; k_proc := k_proc c; k_fd := k_fd c; k_lfd := v; k_sa := k_sa c; k_sh := k_sh c; k_tmp := k_tmp c; k_fault := k_fault c; k_start := k_start c; k_ok := k_ok c; k_fail := k_fail c; k_pull := k_pull c |}.
Definition set_k_sa (v : bool) (c : conn) : conn := {| k_st := k_st c; k_addr := k_addr c; k_bind := k_bind c; k_kind := k_kind c; k_proc := k_proc c; k_fd := k_fd c; k_lfd := k_lfd c; k_sa := v; k_sh := k_sh c; k_tmp := k_tmp c; k_fault := k_fault c; k_start := k_start c; k_ok := k_ok c; k_fail := k_fail c; k_pull := k_pull c |}.
Definition set_k_sh (v : bool) (c : conn) : conn := {| k_st := k_st c; k_addr := k_addr c; k_bind := k_bind c; k_kind := k_kind c; k_proc := k_proc c; k_fd := k_fd c; k_lfd := k_lfd c; k_sa := k_sa c; k_sh := v; k_tmp := k_tmp c; k_fault := k_fault c; k_start := k_start c; k_ok := k_ok c; k_fail := k_fail c; k_pull := k_pull c |}.
Definition set_k_tmp (v : bool) (c : conn) : conn := {| k_st := k_st c; k_addr := k_addr c; k_bind := k_bind c; k_kind := k_kind c; k_proc := k_proc c; k_fd := k_fd c; k_lfd := k_lfd c; k_sa := k_sa c; k_sh := k_sh c; k_tmp := v; k_fault := k_fault c; k_start := k_start c; k_ok := k_ok c; k_fail := k_fail c; k_pull := k_pull c |}.
Definition set_k_fault (v : N) (c : conn) : conn := {| k_st := k_st c; k_addr := k_addr c; k_bind := k_bind c; k_kind := k_kind c; k_proc := k_proc c; k_fd := k_fd c; k_lfd := k_lfd c; k_sa := k_sa c; k_sh := k_sh c; k_tmp := k_tmp c; k_fault := v; k_start := k_start c; k_ok := k_ok c; k_fail := k_fail c; k_pull := k_pull c |}.
Definition set_k_start (v : N * N) (c : conn) : conn := {| k_st := k_st c; k_addr := k_addr c; k_bind := k_bind c; k_kind := k_kind c; k_proc := k_proc c; k_fd := k_fd c; k_lfd := k_lfd c; k_sa := k_sa c; k_sh := k_sh c; k_tmp := k_tmp c; k_fault := k_fault c; k_start := v; k_ok := k_ok c; k_fail := k_fail c; k_pull := k_pull c |}.
Definition set_k_ok (v : N * N) (c : conn) : conn := {| k_st := k_st c; k_addr := k_addr c; k_bind := k_bind c; k_kind := k_kind c; k_proc := k_proc c; k_fd := k_fd c; k_lfd := k_lfd c; k_sa := k_sa c; k_sh := k_sh c; k_tmp := k_tmp c; k_fault := k_fault c; k_start := k_start c; k_ok := v; k_fail := k_fail c; k_pull := k_pull c |}.
Definition set_k_fail (v : N * N) (c : conn) : conn := {| k_st := k_st c; k_addr := k_addr c; k_bind := k_bind c; k_kind := k_kind c; k_proc := k_proc c; k_fd := k_fd c; k_lfd := k_lfd c; k_sa := k_sa c; k_sh := k_sh c; k_tmp := k_tmp c; k_fault := k_fault c; k_start := k_start c; k_ok := k_ok c; k_fail := v; k_pull := k_pull c |}.
Definition set_k_pull (v : N * N) (c : conn) : conn := {| k_st := k_st c; k_addr := k_addr c; k_bind := k_bind c; k_kind := k_kind c; k_proc := k_proc c; k_fd := k_fd c; k_lfd := k_lfd c; k_sa := k_sa c; k_sh := k_sh c; k_tmp := k_tmp c; k_fault := k_fault c; k_start := k_start c; k_ok := k_ok c; k_fail := k_fail c; k_pull := v |}.

(** [endpoint]: its identity, process id and host name, control connection, data
    connections, announced addresses, HAS_LISTEN_FD, HAS_PING_TIMER, fault counter,
    number of the unanswered ping, creation time. *)
Record epd := {
  d_ep : ep;
  d_pid : N;
  d_host : bytes;
  d_ctrl : option N;
  d_data : list N;
  d_listen : list bytes;
  d_lfd : bool;
  d_timer : bool;
  d_fault : N;
  d_ping : N;
  d_created : N }.
Definition set_d_ep (v : ep) (d : epd) : epd := {| d_ep := v; d_pid := d_pid d; d_host := d_host d; d_ctrl := d_ctrl d; d_data := d_data d; d_listen := d_listen d; d_lfd := d_lfd d; d_timer := d_timer d; d_fault := d_fault d; d_ping := d_ping d; d_created := d_created d |}.
Definition set_d_pid (v : N) (d : epd) : epd := {| d_ep := d_ep d; d_pid := v; d_host := d_host d; d_ctrl := d_ctrl d; d_data := d_data d; d_listen := d_listen d; d_lfd := d_lfd d; d_timer := d_timer d; d_fault := d_fault d; d_ping := d_ping d; d_created := d_created d |}.
Definition set_d_host (v : bytes) (d : epd) : epd := {| d_ep := d_ep d; d_pid := d_pid d; d_host := v; d_ctrl := d_ctrl d; d_data := d_data d; d_listen := d_listen d; d_lfd := d_lfd d; d_timer := d_timer d; d_fault := d_fault d; d_ping := d_ping d; d_created := d_created d |}.
Definition set_d_ctrl (v : option N) (d : epd) : epd := {| d_ep := d_ep d; d_pid := d_pid d; d_host := d_host d; d_ctrl := v; d_data := d_data d; d_listen := d_listen d; d_lfd := d_lfd d; d_timer := d_timer d; d_fault := d_fault d; d_ping := d_ping d; d_created := d_created d |}.
Definition set_d_data (v : list N) (d : epd) : epd := {| d_ep := d_ep d; d_pid := d_pid d; d_host := d_host d; d_ctrl := d_ctrl d; d_data := v; d_listen := d_listen d; d_lfd := d_lfd d; d_timer := d_timer d; d_fault := d_fault d; d_ping := d_ping d; d_created := d_created d |}.
Definition set_d_listen (v : list bytes) (d : epd) : epd := {| d_ep := d_ep d; d_pid := d_pid d; d_host := d_host d; d_ctrl := d_ctrl d; d_data := d_data d; d_listen := v; d_lfd := d_lfd d; d_timer := d_timer d; d_fault := d_fault d; d_ping := d_ping d; d_created := d_created d |}.
Definition set_d_lfd (v : bool) (d : epd) : epd := {| d_ep := d_ep d; d_pid := d_pid d; d_host := d_host d; d_ctrl := d_ctrl d; d_data := d_data d; d_listen := d_listen d; d_lfd := v; d_timer := d_timer d; d_fault := d_fault d; d_ping := d_ping d; d_created := d_created d |}.
Definition set_d_timer (v : bool) (d : epd) : epd := {| d_ep := d_ep d; d_pid := d_pid d; d_host := d_host d; d_ctrl := d_ctrl d; d_data := d_data d; d_listen := d_listen d; d_lfd := d_lfd d; d_timer := v; d_fault := d_fault d; d_ping := d_ping d; d_created := d_created d |}.
Definition set_d_fault (v : N) (d : epd) : epd := {| d_ep := d_ep d; d_pid := d_pid d; d_host := d_host d; d_ctrl := d_ctrl d; d_data := d_data d; d_listen := d_listen d; d_lfd := d_lfd d; d_timer := d_timer d; d_fault := v; d_ping := d_ping d; d_created := d_created d |}.
Definition set_d_ping (v : N) (d : epd) : epd := {| d_ep := d_ep d; d_pid := d_pid d; d_host := d_host d; d_ctrl := d_ctrl d; d_data := d_data d; d_listen := d_listen d; d_lfd := d_lfd d; d_timer := d_timer d; d_fault := d_fault d; d_ping := v; d_created := d_created d |}.
Definition set_d_created (v : N) (d : epd) : epd := {| d_ep := d_ep d; d_pid := d_pid d; d_host := d_host d; d_ctrl := d_ctrl d; d_data := d_data d; d_listen := d_listen d; d_lfd := d_lfd d; d_timer := d_timer d; d_fault := d_fault d; d_ping := d_ping d; d_created := v |}.

(** ** Observable effects *)
(** What a run of the node does, newest first in the log: callbacks and transport
    operations.  [TUb] marks undefined behaviour of the code. *)
Inductive ubk := UShift | UFreed | UIterator | UThrow | UNull.
Inductive tr :=
| TSend (c : N) (m : msg) (n : N) (r : Z)               (* transport send: size, result *)
| TRecv (e c : option N) (m : msg)                      (* on_recv_msg *)
| TAnswer (e c : option N) (m : msg)                    (* on_forward_response *)
| TCmd (c : option N) (from : N) (args : list bytes)    (* on_custom_cmd *)
| TCmdRsp (c : option N) (from : N) (args : list bytes) (seq : N)   (* on_custom_rsp *)
| TUp | TDown (reason : Z)                              (* on_node_up, on_node_down *)
| TAdded (e : N) | TRemoved (e : N)                     (* on_endpoint_added / removed *)
| TInvalid (c : N) | TNew (c : N)                       (* on_invalid_connection, on_new_connection *)
| TReg (c : N) (status : Z)                             (* on_reg *)
| TPing (e : option N) (m : msg) | TPong (e : option N) (m : msg)
| TWrote (c : N) (status : Z) (n : N)                   (* write callback: status, payload size *)
| TClose (c : N)                                        (* transport closed by free_fn *)
| TReset                                                (* marker: the node was reset *)
| TUb (k : ubk)
(* markers: what the node does internally, without a callback *)
| TFault (e id limit : N)                               (* a fault was counted; id, tolerance in force *)
| TGood (e : N)                                         (* a message was handled, faults forgotten *)
| TCheck (e : N) (ctrl : option N) (data : list N)      (* collected: its control, its running data connections *)
| TAsked (id : N)                                       (* disconnect was called and found [id] *)
| TBegin.                                               (* a reset began; [TReset] ends it *)

(** ** The node *)
(** [node] (node.h): configuration, state, own endpoint, parent, routes; the flags
    RESETTING, RESETTING_GC, ACTIVED, PARENT_REG_DONE, SHUTDOWN, RECV_SELF_MSG,
    IN_GC_ENDPOINTS, IN_GC_CONNECTIONS; the clock, the parent timer, the list of
    unfinished connections (deadline, connection), the ping list (tick, endpoint),
    the connections with a pending connect or listen operation,
    the two garbage lists, the polled connections, the sequence counter, the two
    queues of messages to itself.  Connections and endpoints live in heaps indexed by
    object number.  [orc] are the results the transport will return, [salts] the
    random numbers. *)
Record node := {
  cf : cfg;
  nst : nstate;
  self : option ep;
  parent : option ep;
  routes : coll;
  fl_reset : bool;
  fl_gcreset : bool;
  fl_act : bool;
  fl_preg : bool;
  fl_shut : bool;
  fl_self : bool;
  fl_gce : bool;
  fl_gcc : bool;
  sec : N;
  popr : N;
  connecting : list (N * N);
  pings : list (N * N);
  pend : list N;
  lpend : list N;
  gce : list ep;
  gcc : list N;
  procs : list (bytes * N);
  seqn : N;
  qdata : list msg;
  qcmd : list msg;
  cs : N -> conn;
  nextc : N;
  es : N -> epd;
  nexte : N;
  orc : list Z;
  salts : list N;
  log : list tr }.
Definition set_cf (v : cfg) (s : node) : node := {| cf := v; nst := nst s; self := self s; parent := parent s; routes := routes s; fl_reset := fl_reset s; fl_gcreset := fl_gcreset s; fl_act := fl_act s; fl_preg := fl_preg s; fl_shut := fl_shut s; fl_self := fl_self s; fl_gce := fl_gce s; fl_gcc := fl_gcc s; sec := sec s; popr := popr s; connecting := connecting s; pings := pings s; pend := pend s; lpend := lpend s; gce := gce s; gcc := gcc s; procs := procs s; seqn := seqn s; qdata := qdata s; qcmd := qcmd s; cs := cs s; nextc := nextc s; es := es s; nexte := nexte s; orc := orc s; salts := salts s; log := log s |}.
Definition set_nst (v : nstate) (s : node) : node := {| cf := cf s; nst := v; self := self s; parent := parent s; routes := routes s; fl_reset := fl_reset s; fl_gcreset := fl_gcreset s; fl_act := fl_act s; fl_preg := fl_preg s; fl_shut := fl_shut s; fl_self := fl_self s; fl_gce := fl_gce s; fl_gcc := fl_gcc s; sec := sec s; popr := popr s; connecting := connecting s; pings := pings s; pend := pend s; lpend := lpend s; gce := gce s; gcc := gcc s; procs := procs s; seqn := seqn s; qdata := qdata s; qcmd := qcmd s; cs := cs s; nextc := nextc s; es := es s; nexte := nexte s; orc := orc s; salts := salts s; log := log s |}.
Definition set_self (v : option ep) (s : node) : node := {| cf := cf s; nst := nst s; self := v; parent := parent s; routes := routes s; fl_reset := fl_reset s; fl_gcreset := fl_gcreset s; fl_act := fl_act s; fl_preg := fl_preg s; fl_shut := fl_shut s; fl_self := fl_self s; fl_gce := fl_gce s; fl_gcc := fl_gcc s; sec := sec s; popr := popr s; connecting := connecting s; pings := pings s; pend := pend s; lpend := lpend s; gce := gce s; gcc := gcc s; procs := procs s; seqn := seqn s; qdata := qdata s; qcmd := qcmd s; cs := cs s; nextc := nextc s; es := es s; nexte := nexte s; orc := orc s; salts := salts s; log := log s |}.
Definition set_parent (v : option ep) (s : node) : node := {| cf := cf s; nst := nst s; self := self s; parent := v; routes := routes s; fl_reset := fl_reset s; fl_gcreset := fl_gcreset s; fl_act := fl_act s; fl_preg := fl_preg s; fl_shut := fl_shut s; fl_self := fl_self s; fl_gce := fl_gce s; fl_gcc := fl_gcc s; sec := sec s; popr := popr s; connecting := connecting s; pings := pings s; pend := pend s; lpend := lpend s; gce := gce s; gcc := gcc s; procs := procs s; seqn := seqn s; qdata := qdata s; qcmd := qcmd s; cs := cs s; nextc := nextc s; es := es s; nexte := nexte s; orc := orc s; salts := salts s; log := log s |}.
Definition set_routes (v : coll) (s : node) : node := {| cf := cf s; nst := nst s; self := self s; parent := parent s; routes := v; fl_reset := fl_reset s; fl_gcreset := fl_gcreset s; fl_act := fl_act s; fl_preg := fl_preg s; fl_shut := fl_shut s; fl_self := fl_self s; fl_gce := fl_gce s; fl_gcc := fl_gcc s; sec := sec s; popr := popr s; connecting := connecting s; pings := pings s; pend := pend s; lpend := lpend s; gce := gce s; gcc := gcc s; procs := procs s; seqn := seqn s; qdata := qdata s; qcmd := qcmd s; cs := cs s; nextc := nextc s; es := es s; nexte := nexte s; orc := orc s; salts := salts s; log := log s |}.
Definition set_fl_reset (v : bool) (s : node) : node := {| cf := cf s; nst := nst s; self := self s; parent := parent s; routes := routes s; fl_reset := v; fl_gcreset := fl_gcreset s; fl_act := fl_act s; fl_preg := fl_preg s; fl_shut := fl_shut s; fl_self := fl_self s; fl_gce := fl_gce s; fl_gcc := fl_gcc s; sec := sec s; popr := popr s; connecting := connecting s; pings := pings s; pend := pend s; lpend := lpend s; gce := gce s; gcc := gcc s; procs := procs s; seqn := seqn s; qdata := qdata s; qcmd := qcmd s; cs := cs s; nextc := nextc s; es := es s; nexte := nexte s; orc := orc s; salts := salts s; log := log s |}.
Definition set_fl_gcreset (v : bool) (s : node) : node := {| cf := cf s; nst := nst s; self := self s; parent := parent s; routes := routes s; fl_reset := fl_reset s; fl_gcreset := v; fl_act := fl_act s; fl_preg := fl_preg s; fl_shut := fl_shut s; fl_self := fl_self s; fl_gce := fl_gce s; fl_gcc := fl_gcc s; sec := sec s; popr := popr s; connecting := connecting s; pings := pings s; pend := pend s; lpend := lpend s; gce := gce s; gcc := gcc s; procs := procs s; seqn := seqn s; qdata := qdata s; qcmd := qcmd s; cs := cs s; nextc := nextc s; es := es s; nexte := nexte s; orc := orc s; salts := salts s; log := log s |}.
Definition set_fl_act (v : bool) (s : node) : node := {| cf := cf s; nst := nst s; self := self s; parent := parent s; routes := routes s; fl_reset := fl_reset s; fl_gcreset := fl_gcreset s; fl_act := v; fl_preg := fl_preg s; fl_shut := fl_shut s; fl_self := fl_self s; fl_gce := fl_gce s; fl_gcc := fl_gcc s; sec := sec s; popr := popr s; connecting := connecting s; pings := pings s; pend := pend s; lpend := lpend s; gce := gce s; gcc := gcc s; procs := procs s; seqn := seqn s; qdata := qdata s; qcmd := qcmd s; cs := cs s; nextc := nextc s; es := es s; nexte := nexte s; orc := orc s; salts := salts s; log := log s |}.
Definition set_fl_preg (v : bool) (s : node) : node := {| cf := cf s; nst := nst s; self := self s; parent := parent s; routes := routes s; fl_reset := fl_reset s; fl_gcreset := fl_gcreset s; fl_act := fl_act s; fl_preg := v; fl_shut := fl_shut s; fl_self := fl_self s; fl_gce := fl_gce s; fl_gcc := fl_gcc s; sec := sec s; popr := popr s; connecting := connecting s; pings := pings s; pend := pend s; lpend := lpend s; gce := gce s; gcc := gcc s; procs := procs s; seqn := seqn s; qdata := qdata s; qcmd := qcmd s; cs := cs s; nextc := nextc s; es := es s; nexte := nexte s; orc := orc s; salts := salts s; log := log s |}.
Definition set_fl_shut (v : bool) (s : node) : node := {| cf := cf s; nst := nst s; self := self s; parent := parent s; routes := routes s; fl_reset := fl_reset s; fl_gcreset := fl_gcreset s; fl_act := fl_act s; fl_preg := fl_preg s; fl_shut := v; fl_self := fl_self s; fl_gce := fl_gce s; fl_gcc := fl_gcc s; sec := sec s; popr := popr s; connecting := connecting s; pings := pings s; pend := pend s; lpend := lpend s; gce := gce s; gcc := gcc s; procs := procs s; seqn := seqn s; qdata := qdata s; qcmd := qcmd s; cs := cs s; nextc := nextc s; es := es s; nexte := nexte s; orc := orc s; salts := salts s; log := log s |}.
Definition set_fl_self (v : bool) (s : node) : node := {| cf := cf s; nst := nst s; self := self s; parent := parent s; routes := routes s; fl_reset := fl_reset s; fl_gcreset := fl_gcreset s; fl_act := fl_act s; fl_preg := fl_preg s; fl_shut := fl_shut s; fl_self := v; fl_gce := fl_gce s; fl_gcc := fl_gcc s; sec := sec s; popr := popr s; connecting := connecting s; pings := pings s; pend := pend s; lpend := lpend s; gce := gce s; gcc := gcc s; procs := procs s; seqn := seqn s; qdata := qdata s; qcmd := qcmd s; cs := cs s; nextc := nextc s; es := es s; nexte := nexte s; orc := orc s; salts := salts s; log := log s |}.
Definition set_fl_gce (v : bool) (s : node) : node := {| cf := cf s; nst := nst s; self := self s; parent := parent s; routes := routes s; fl_reset := fl_reset s; fl_gcreset := fl_gcreset s; fl_act := fl_act s; fl_preg := fl_preg s; fl_shut := fl_shut s; fl_self := fl_self s; fl_gce := v; fl_gcc := fl_gcc s; sec := sec s; popr := popr s; connecting := connecting s; pings := pings s; pend := pend s; lpend := lpend s; gce := gce s; gcc := gcc s; procs := procs s; seqn := seqn s; qdata := qdata s; qcmd := qcmd s; cs := cs s; nextc := nextc s; es := es s; nexte := nexte s; orc := orc s; salts := salts s; log := log s |}.
Definition set_fl_gcc (v : bool) (s : node) : node := {| cf := cf s; nst := nst s; self := self s; parent := parent s; routes := routes s; fl_reset := fl_reset s; fl_gcreset := fl_gcreset s; fl_act := fl_act s; fl_preg := fl_preg s; fl_shut := fl_shut s; fl_self := fl_self s; fl_gce := fl_gce s; fl_gcc := v; sec := sec s; popr := popr s; connecting := connecting s; pings := pings s; pend := pend s; lpend := lpend s; gce := gce s; gcc := gcc s; procs := procs s; seqn := seqn s; qdata := qdata s; qcmd := qcmd s; cs := cs s; nextc := nextc s; es := es s; nexte := nexte s; orc := orc s; salts := salts s; log := log s |}.
Definition set_sec (v : N) (s : node) : node := {| cf := cf s; nst := nst s; self := self s; parent := parent s; routes := routes s; fl_reset := fl_reset s; fl_gcreset := fl_gcreset s; fl_act := fl_act s; fl_preg := fl_preg s; fl_shut := fl_shut s; fl_self := fl_self s; fl_gce := fl_gce s; fl_gcc := fl_gcc s; sec := v; popr := popr s; connecting := connecting s; pings := pings s; pend := pend s; lpend := lpend s; gce := gce s; gcc := gcc s; procs := procs s; seqn := seqn s; qdata := qdata s; qcmd := qcmd s; cs := cs s; nextc := nextc s; es := es s; nexte := nexte s; orc := orc s; salts := salts s; log := log s |}.
Definition set_popr (v : N) (s : node) : node := {| cf := cf s; nst := nst s; self := self s; parent := parent s; routes := routes s; fl_reset := fl_reset s; fl_gcreset := fl_gcreset s; fl_act := fl_act s; fl_preg := fl_preg s; fl_shut := fl_shut s; fl_self := fl_self s; fl_gce := fl_gce s; fl_gcc := fl_gcc s; sec := sec s; popr := v; connecting := connecting s; pings := pings s; pend := pend s; lpend := lpend s; gce := gce s; gcc := gcc s; procs := procs s; seqn := seqn s; qdata := qdata s; qcmd := qcmd s; cs := cs s; nextc := nextc s; es := es s; nexte := nexte s; orc := orc s; salts := salts s; log := log s |}.
Definition set_connecting (v : list (N * N)) (s : node) : node := {| cf := cf s; nst := nst s; self := self s; parent := parent s; routes := routes s; fl_reset := fl_reset s; fl_gcreset := fl_gcreset s; fl_act := fl_act s; fl_preg := fl_preg s; fl_shut := fl_shut s; fl_self := fl_self s; fl_gce := fl_gce s; fl_gcc := fl_gcc s; sec := sec s; popr := popr s; connecting := v; pings := pings s; pend := pend s; lpend := lpend s; gce := gce s; gcc := gcc s; procs := procs s; seqn := seqn s; qdata := qdata s; qcmd := qcmd s; cs := cs s; nextc := nextc s; es := es s; nexte := nexte s; orc := orc s; salts := salts s; log := log s |}.
Definition set_pings (v : list (N * N)) (s : node) : node := {| cf := cf s; nst := nst s; self := self s; parent := parent s; routes := routes s; fl_reset := fl_reset s; fl_gcreset := fl_gcreset s; fl_act := fl_act s; fl_preg := fl_preg s; fl_shut := fl_shut s; fl_self := fl_self s; fl_gce := fl_gce s; fl_gcc := fl_gcc s; sec := sec s; popr := popr s; connecting := connecting s; pings := v; pend := pend s; lpend := lpend s; gce := gce s; gcc := gcc s; procs := procs s; seqn := seqn s; qdata := qdata s; qcmd := qcmd s; cs := cs s; nextc := nextc s; es := es s; nexte := nexte s; orc := orc s; salts := salts s; log := log s |}.
Definition set_pend (v : list N) (s : node) : node := {| cf := cf s; nst := nst s; self := self s; parent := parent s; routes := routes s; fl_reset := fl_reset s; fl_gcreset := fl_gcreset s; fl_act := fl_act s; fl_preg := fl_preg s; fl_shut := fl_shut s; fl_self := fl_self s; fl_gce := fl_gce s; fl_gcc := fl_gcc s; sec := sec s; popr := popr s; connecting := connecting s; pings := pings s; pend := v; lpend := lpend s; gce := gce s; gcc := gcc s; procs := procs s; seqn := seqn s; qdata := qdata s; qcmd := qcmd s; cs := cs s; nextc := nextc s; es := es s; nexte := nexte s; orc := orc s; salts := salts s; log := log s |}.
Definition set_lpend (v : list N) (s : node) : node := {| cf := cf s; nst := nst s; self := self s; parent := parent s; routes := routes s; fl_reset := fl_reset s; fl_gcreset := fl_gcreset s; fl_act := fl_act s; fl_preg := fl_preg s; fl_shut := fl_shut s; fl_self := fl_self s; fl_gce := fl_gce s; fl_gcc := fl_gcc s; sec := sec s; popr := popr s; connecting := connecting s; pings := pings s; pend := pend s; lpend := v; gce := gce s; gcc := gcc s; procs := procs s; seqn := seqn s; qdata := qdata s; qcmd := qcmd s; cs := cs s; nextc := nextc s; es := es s; nexte := nexte s; orc := orc s; salts := salts s; log := log s |}.
Definition set_gce (v : list ep) (s : node) : node := {| cf := cf s; nst := nst s; self := self s; parent := parent s; routes := routes s; fl_reset := fl_reset s; fl_gcreset := fl_gcreset s; fl_act := fl_act s; fl_preg := fl_preg s; fl_shut := fl_shut s; fl_self := fl_self s; fl_gce := fl_gce s; fl_gcc := fl_gcc s; sec := sec s; popr := popr s; connecting := connecting s; pings := pings s; pend := pend s; lpend := lpend s; gce := v; gcc := gcc s; procs := procs s; seqn := seqn s; qdata := qdata s; qcmd := qcmd s; cs := cs s; nextc := nextc s; es := es s; nexte := nexte s; orc := orc s; salts := salts s; log := log s |}.
Definition set_gcc (v : list N) (s : node) : node := {| cf := cf s; nst := nst s; self := self s; parent := parent s; routes := routes s; fl_reset := fl_reset s; fl_gcreset := fl_gcreset s; fl_act := fl_act s; fl_preg := fl_preg s; fl_shut := fl_shut s; fl_self := fl_self s; fl_gce := fl_gce s; fl_gcc := fl_gcc s; sec := sec s; popr := popr s; connecting := connecting s; pings := pings s; pend := pend s; lpend := lpend s; gce := gce s; gcc := v; procs := procs s; seqn := seqn s; qdata := qdata s; qcmd := qcmd s; cs := cs s; nextc := nextc s; es := es s; nexte := nexte s; orc := orc s; salts := salts s; log := log s |}.
Definition set_procs (v : list (bytes * N)) (s : node) : node := {| cf := cf s; nst := nst s; self := self s; parent := parent s; routes := routes s; fl_reset := fl_reset s; fl_gcreset := fl_gcreset s; fl_act := fl_act s; fl_preg := fl_preg s; fl_shut := fl_shut s; fl_self := fl_self s; fl_gce := fl_gce s; fl_gcc := fl_gcc s; sec := sec s; popr := popr s; connecting := connecting s; pings := pings s; pend := pend s; lpend := lpend s; gce := gce s; gcc := gcc s; procs := v; seqn := seqn s; qdata := qdata s; qcmd := qcmd s; cs := cs s; nextc := nextc s; es := es s; nexte := nexte s; orc := orc s; salts := salts s; log := log s |}.
Definition set_seqn (v : N) (s : node) : node := {| cf := cf s; nst := nst s; self := self s; parent := parent s; routes := routes s; fl_reset := fl_reset s; fl_gcreset := fl_gcreset s; fl_act := fl_act s; fl_preg := fl_preg s; fl_shut := fl_shut s; fl_self := fl_self s; fl_gce := fl_gce s; fl_gcc := fl_gcc s; sec := sec s; popr := popr s; connecting := connecting s; pings := pings s; pend := pend s; lpend := lpend s; gce := gce s; gcc := gcc s; procs := procs s; seqn := v; qdata := qdata s; qcmd := qcmd s; cs := cs s; nextc := nextc s; es := es s; nexte := nexte s; orc := orc s; salts := salts s; log := log s |}.
Definition set_qdata (v : list msg) (s : node) : node := {| cf := cf s; nst := nst s; self := self s; parent := parent s; routes := routes s; fl_reset := fl_reset s; fl_gcreset := fl_gcreset s; fl_act := fl_act s; fl_preg := fl_preg s; fl_shut := fl_shut s; fl_self := fl_self s; fl_gce := fl_gce s; fl_gcc := fl_gcc s; sec := sec s; popr := popr s; connecting := connecting s; pings := pings s; pend := pend s; lpend := lpend s; gce := gce s; gcc := gcc s; procs := procs s; seqn := seqn s; qdata := v; qcmd := qcmd s; cs := cs s; nextc := nextc s; es := es s; nexte := nexte s; orc := orc s; salts := salts s; log := log s |}.
Definition set_qcmd (v : list msg) (s : node) : node := {| cf := cf s; nst := nst s; self := self s; parent := parent s; routes := routes s; fl_reset := fl_reset s; fl_gcreset := fl_gcreset s; fl_act := fl_act s; fl_preg := fl_preg s; fl_shut := fl_shut s; fl_self := fl_self s; fl_gce := fl_gce s; fl_gcc := fl_gcc s; sec := sec s; popr := popr s; connecting := connecting s; pings := pings s; pend := pend s; lpend := lpend s; gce := gce s; gcc := gcc s; procs := procs s; seqn := seqn s; qdata := qdata s; qcmd := v; cs := cs s; nextc := nextc s; es := es s; nexte := nexte s; orc := orc s; salts := salts s; log := log s |}.
Definition set_cs (v : N -> conn) (s : node) : node := {| cf := cf s; nst := nst s; self := self s; parent := parent s; routes := routes s; fl_reset := fl_reset s; fl_gcreset := fl_gcreset s; fl_act := fl_act s; fl_preg := fl_preg s; fl_shut := fl_shut s; fl_self := fl_self s; fl_gce := fl_gce s; fl_gcc := fl_gcc s; sec := sec s; popr := popr s; connecting := connecting s; pings := pings s; pend := pend s; lpend := lpend s; gce := gce s; gcc := gcc s; procs := procs s; seqn := seqn s; qdata := qdata s; qcmd := qcmd s; cs := v; nextc := nextc s; es := es s; nexte := nexte s; orc := orc s; salts := salts s; log := log s |}.
Definition set_nextc (v : N) (s : node) : node := {| cf := cf s; nst := nst s; self := self s; parent := parent s; routes := routes s; fl_reset := fl_reset s; fl_gcreset := fl_gcreset s; fl_act := fl_act s; fl_preg := fl_preg s; fl_shut := fl_shut s; fl_self := fl_self s; fl_gce := fl_gce s; fl_gcc := fl_gcc s; sec := sec s; popr := popr s; connecting := connecting s; pings := pings s; pend := pend s; lpend := lpend s; gce := gce s; gcc := gcc s; procs := procs s; seqn := seqn s; qdata := qdata s; qcmd := qcmd s; cs := cs s; nextc := v; es := es s; nexte := nexte s; orc := orc s; salts := salts s; log := log s |}.
Definition set_es (v : N -> epd) (s : node) : node := {| cf := cf s; nst := nst s; self := self s; parent := parent s; routes := routes s; fl_reset := fl_reset s; fl_gcreset := fl_gcreset s; fl_act := fl_act s; fl_preg := fl_preg s; fl_shut := fl_shut s; fl_self := fl_self s; fl_gce := fl_gce s; fl_gcc := fl_gcc s; sec := sec s; popr := popr s; connecting := connecting s; pings := pings s; pend := pend s; lpend := lpend s; gce := gce s; gcc := gcc s; procs := procs s; seqn := seqn s; qdata := qdata s; qcmd := qcmd s; cs := cs s; nextc := nextc s; es := v; nexte := nexte s; orc := orc s; salts := salts s; log := log s |}.
Definition set_nexte (v : N) (s : node) : node := {| cf := cf s; nst := nst s; self := self s; parent := parent s; routes := routes s; fl_reset := fl_reset s; fl_gcreset := fl_gcreset s; fl_act := fl_act s; fl_preg := fl_preg s; fl_shut := fl_shut s; fl_self := fl_self s; fl_gce := fl_gce s; fl_gcc := fl_gcc s; sec := sec s; popr := popr s; connecting := connecting s; pings := pings s; pend := pend s; lpend := lpend s; gce := gce s; gcc := gcc s; procs := procs s; seqn := seqn s; qdata := qdata s; qcmd := qcmd s; cs := cs s; nextc := nextc s; es := es s; nexte := v; orc := orc s; salts := salts s; log := log s |}.
Definition set_orc (v : list Z) (s : node) : node := {| cf := cf s; nst := nst s; self := self s; parent := parent s; routes := routes s; fl_reset := fl_reset s; fl_gcreset := fl_gcreset s; fl_act := fl_act s; fl_preg := fl_preg s; fl_shut := fl_shut s; fl_self := fl_self s; fl_gce := fl_gce s; fl_gcc := fl_gcc s; sec := sec s; popr := popr s; connecting := connecting s; pings := pings s; pend := pend s; lpend := lpend s; gce := gce s; gcc := gcc s; procs := procs s; seqn := seqn s; qdata := qdata s; qcmd := qcmd s; cs := cs s; nextc := nextc s; es := es s; nexte := nexte s; orc := v; salts := salts s; log := log s |}.
Definition set_salts (v : list N) (s : node) : node := {| cf := cf s; nst := nst s; self := self s; parent := parent s; routes := routes s; fl_reset := fl_reset s; fl_gcreset := fl_gcreset s; fl_act := fl_act s; fl_preg := fl_preg s; fl_shut := fl_shut s; fl_self := fl_self s; fl_gce := fl_gce s; fl_gcc := fl_gcc s; sec := sec s; popr := popr s; connecting := connecting s; pings := pings s; pend := pend s; lpend := lpend s; gce := gce s; gcc := gcc s; procs := procs s; seqn := seqn s; qdata := qdata s; qcmd := qcmd s; cs := cs s; nextc := nextc s; es := es s; nexte := nexte s; orc := orc s; salts := v; log := log s |}.
Definition set_log (v : list tr) (s : node) : node := {| cf := cf s; nst := nst s; self := self s; parent := parent s; routes := routes s; fl_reset := fl_reset s; fl_gcreset := fl_gcreset s; fl_act := fl_act s; fl_preg := fl_preg s; fl_shut := fl_shut s; fl_self := fl_self s; fl_gce := fl_gce s; fl_gcc := fl_gcc s; sec := sec s; popr := popr s; connecting := connecting s; pings := pings s; pend := pend s; lpend := lpend s; gce := gce s; gcc := gcc s; procs := procs s; seqn := seqn s; qdata := qdata s; qcmd := qcmd s; cs := cs s; nextc := nextc s; es := es s; nexte := nexte s; orc := orc s; salts := salts s; log := v |}.

Definition upd {A} (f : N -> A) (k : N) (v : A) : N -> A := fun x => if x =? k then v else f x.
(** Field updates inside the heaps. *)
Definition on_c (c : N) (f : conn -> conn) (s : node) : node := set_cs (upd (cs s) c (f (cs s c))) s.
Definition on_e (e : N) (f : epd -> epd) (s : node) : node := set_es (upd (es s) e (f (es s e))) s.
Definition emit (t : tr) (s : node) : node := set_log (t :: log s) s.

Definition no_conn : conn :=
  {| k_st := Disconnected; k_addr := []; k_bind := None; k_kind := KNone;
     k_proc := false; k_fd := false; k_lfd := false; k_sa := false; k_sh := false; k_tmp := false;
     k_fault := 0; k_start := (0, 0); k_ok := (0, 0); k_fail := (0, 0); k_pull := (0, 0) |}.
Definition no_epd : epd :=
  {| d_ep := {| e_ref := 0; e_id := 0; e_subs := [] |}; d_pid := 0; d_host := [];
     d_ctrl := None; d_data := []; d_listen := []; d_lfd := false; d_timer := false;
     d_fault := 0; d_ping := 0; d_created := 0 |}.
Definition no_cfg : cfg :=
  {| x_nets := []; x_parent := []; x_loop := 128; x_ttl := 16; x_ping := 8; x_retry := 3;
     x_first := 30; x_tol := 2; x_backlog := 128; x_msg := 262144; x_tokens := [];
     x_pid := 0; x_host := []; x_mac := fun _ _ => (0, 0); x_size := fun _ => 0; x_cmd := 0;
     x_reply := fun _ => [] |}.
(** [node::create] (node.cpp 168-176): a node before [init]. *)
Definition new_node : node :=
  {| cf := no_cfg; nst := NCreated; self := None; parent := None; routes := [];
     fl_reset := false; fl_gcreset := false; fl_act := false; fl_preg := false; fl_shut := false;
     fl_self := false; fl_gce := false; fl_gcc := false; sec := 0; popr := 0;
     connecting := []; pings := []; pend := []; lpend := []; gce := []; gcc := []; procs := []; seqn := 0;
     qdata := []; qcmd := []; cs := fun _ => no_conn; nextc := 1; es := fun _ => no_epd; nexte := 1;
     orc := []; salts := []; log := [] |}.

(** Error codes (libatbus_error.h). *)
Definition E_OK : Z := 0%Z.
Definition E_PARAMS : Z := (-1)%Z.
Definition E_BAD_DATA : Z := (-7)%Z.
Definition E_INVALID_SIZE : Z := (-8)%Z.
Definition E_NOT_INITED : Z := (-9)%Z.
Definition E_ALREADY_INITED : Z := (-10)%Z.
Definition E_ACCESS_DENY : Z := (-11)%Z.
Definition E_VERSION : Z := (-14)%Z.
Definition E_CLOSING : Z := (-15)%Z.
Definition E_NOT_FOUND : Z := (-65)%Z.
Definition E_INVALID_ID : Z := (-66)%Z.
Definition E_NO_CONNECTION : Z := (-67)%Z.
Definition E_FAULT : Z := (-68)%Z.
Definition E_INVALID_MSG : Z := (-69)%Z.
Definition E_ID_NOT_MATCH : Z := (-70)%Z.
Definition E_TTL : Z := (-71)%Z.
Definition E_MASK_CONFLICT : Z := (-72)%Z.
Definition E_ID_CONFLICT : Z := (-73)%Z.
Definition E_SRC_DST : Z := (-75)%Z.
Definition E_ADDR_INVALID : Z := (-103)%Z.
Definition E_NOT_READY : Z := (-607)%Z.
