(** Connections and endpoints of one node: how they are created, bound to each
    other and taken down (src/atbus_connection.cpp, src/atbus_endpoint.cpp and the
    parts of src/atbus_node.cpp they call). *)
From Verif Require Import Base Subnet Route Address NodeTypes.
Local Open Scope N_scope.

(** [node::get_id] (node.cpp 1228). *)
Definition my_id (s : node) : N := match self s with Some e => e_id e | None => 0 end.
Definition my_subs (s : node) : list range := match self s with Some e => e_subs e | None => [] end.
(** Identity of the own endpoint object (0 is not used by any object). *)
Definition my_ref (s : node) : N := match self s with Some e => e_ref e | None => 0 end.
(** [node::is_child_node] (1236-1242), [node::is_parent_node] (1244-1254). *)
Definition is_child (s : node) (id : N) : bool :=
  if my_id s =? 0 then false else ep_is_child (my_id s) (my_subs s) id.
Definition is_parent (s : node) (id : N) : bool :=
  if my_id s =? 0 then false
  else match parent s with Some p => id =? e_id p | None => false end.

Definition cst_eqb (x y : cst) : bool :=
  match x, y with
  | Disconnected, Disconnected | Connecting, Connecting | Handshaking, Handshaking
  | Connected, Connected | Disconnecting, Disconnecting => true
  | _, _ => false
  end.
Definition nstate_eqb (x y : nstate) : bool :=
  match x, y with
  | NCreated, NCreated | NInited, NInited | NLost, NLost | NConnecting, NConnecting
  | NRunning, NRunning => true
  | _, _ => false
  end.
Fixpoint bytes_eqb (x y : bytes) : bool :=
  match x, y with
  | [], [] => true
  | a :: x', b :: y' => (a =? b) && bytes_eqb x' y'
  | _, _ => false
  end.
Definition opt_eqb (x y : option N) : bool :=
  match x, y with Some a, Some b => a =? b | None, None => true | _, _ => false end.
Definition memb (x : N) (l : list N) : bool := existsb (N.eqb x) l.
Definition rm (x : N) (l : list N) : list N := filter (fun y => negb (y =? x)) l.

Definition is_connected (s : node) (c : N) : bool := cst_eqb (k_st (cs s c)) Connected.
(** [connection::is_running] (460-462). *)
Definition is_running (s : node) (c : N) : bool :=
  match k_st (cs s c) with Connecting | Handshaking | Connected => true | _ => false end.

(** ** Node up and down (node.cpp 1576-1613, 1663-1681) *)
(** [on_actived]. *)
Definition on_actived (s : node) : node :=
  let s := set_nst NRunning s in
  if fl_act s then s else emit TUp (set_fl_act true s).
(** [shutdown], with [on_shutdown] inlined. *)
Definition shutdown (reason : Z) (s : node) : node :=
  if fl_shut s then s
  else let s := set_fl_shut true s in
       if fl_act s then emit (TDown reason) s else s.
(** [fatal_shutdown]; the error callback is not recorded. *)
Definition fatal_shutdown (status : Z) (s : node) : node := shutdown status s.

(** ** Connection timers (node.cpp 1398-1431) *)
(** [add_connection_timer], called only from [connection::create]. *)
Definition add_timer (c : N) (s : node) : node :=
  match nst s with
  | NCreated => s
  | _ => set_connecting (connecting s ++ [(sec s + x_first (cf s), c)]) s
  end.
(** [remove_connection_timer]: reports the connection unless it got established. *)
Definition in_timer (s : node) (c : N) : bool := existsb (fun p => snd p =? c) (connecting s).
Definition rm_timer (c : N) (s : node) : node :=
  if in_timer s c
  then let s := if is_connected s c then s else emit (TInvalid c) s in
       set_connecting (filter (fun p => negb (snd p =? c)) (connecting s)) s
  else s.

(** [connection::create] (connection.cpp 70-85). *)
Definition conn_create (s : node) : node * N :=
  let c := nextc s in
  (add_timer c (set_nextc (c + 1) (set_cs (upd (cs s) c no_conn) s)), c).

(** [connection::set_status] (480-490). *)
Definition set_status (c : N) (v : cst) (s : node) : node :=
  if cst_eqb (k_st (cs s c)) v then s
  else let s := on_c c (set_k_st v) s in
       match v with Connected => rm_timer c s | _ => s end.

(** [node::on_disconnect] (node.cpp 1530-1550). *)
Definition on_disconnect (c : N) (s : node) : node :=
  if nstate_eqb (nst s) NConnecting && negb (bytes_eqb (x_parent (cf s)) []) &&
     bytes_eqb (x_parent (cf s)) (k_addr (cs s c))
  then let s := set_popr (sec s + x_retry (cf s)) (set_nst NLost s) in
       if fl_act s then s else fatal_shutdown E_MASK_CONFLICT s
  else s.

(** [proc_connections_] (node.cpp 1374-1396): a map keyed by address. *)
Definition add_proc (c : N) (s : node) : node :=
  let a := k_addr (cs s c) in
  if bytes_eqb a [] || existsb (fun p => bytes_eqb (fst p) a) (procs s) then s
  else set_procs (procs s ++ [(a, c)]) s.
Definition rm_proc (a : bytes) (s : node) : node :=
  set_procs (filter (fun p => negb (bytes_eqb (fst p) a)) (procs s)) s.

(** [connection::disconnect] (379-414).  The transport is closed by [free_fn]. *)
Definition disconnect (c : N) (s : node) : node :=
  match k_st (cs s c) with
  | Disconnected | Disconnecting => s
  | _ =>
      let s := set_status c Disconnecting s in
      let s := match k_kind (cs s c) with KNone => s | _ => emit (TClose c) s end in
      let s := on_disconnect c s in
      let s := if k_proc (cs s c)
               then on_c c (set_k_proc false) (rm_proc (k_addr (cs s c)) s) else s in
      set_status c Disconnected (on_c c (set_k_kind KNone) s)
  end.

(** [add_connection_gc_list], [add_endpoint_gc_list] (node.cpp 1848-1868). *)
Definition gc_conn (c : N) (s : node) : node :=
  if fl_gcreset s || fl_gcc s then s else set_gcc (gcc s ++ [c]) s.
Definition gc_ep (e : ep) (s : node) : node :=
  if fl_gcreset s || fl_gce s then s else set_gce (gce s ++ [e]) s.

(** ** Ping timers (node.cpp 2102-2137, endpoint.cpp 418-441) *)
Definition clear_ping (e : N) (s : node) : node :=
  if d_timer (es s e)
  then on_e e (set_d_timer false) (set_pings (filter (fun p => negb (snd p =? e)) (pings s)) s)
  else s.
Definition insert_ping (e : ep) (s : node) : node :=
  if (e_id e =? my_id s) || (x_ping (cf s) =? 0) || fl_gcreset s then s
  else on_e (e_ref e) (set_d_timer true)
         (set_pings (pings s ++ [(sec s + x_ping (cf s), e_ref e)]) s).
Definition add_ping (e : ep) (s : node) : node := insert_ping e (clear_ping (e_ref e) s).

(** ** Resetting connections and endpoints *)
(** [connection::reset] and [endpoint::reset] call each other; their RESETTING flags
    stop the recursion, which is unrolled here.

    First part of [connection::reset] (97-113): timer, transport. *)
Definition conn_close (c : N) (s : node) : node := disconnect c (rm_timer c s).
(** Last part (122-129): garbage list, flags, statistics. *)
Definition conn_fin (c : N) (s : node) : node :=
  on_c c (fun k => {| k_st := k_st k; k_addr := k_addr k; k_bind := k_bind k; k_kind := k_kind k;
                      k_proc := false; k_fd := false; k_lfd := false; k_sa := false; k_sh := false;
                      k_tmp := false; k_fault := 0; k_start := (0, 0); k_ok := (0, 0);
                      k_fail := (0, 0); k_pull := (0, 0) |}) (gc_conn c s).
(** [connection::reset] when the endpoint it is bound to is itself resetting, or
    when it is not bound: [remove_connection] only clears the binding. *)
Definition conn_reset_in (c : N) (s : node) : node :=
  conn_fin c (on_c c (set_k_bind None) (conn_close c s)).
(** [endpoint::reset] (endpoint.cpp 193-231).  [busy] is the connection whose own
    reset led here: its nested [reset] call returns at once.  [gone] says the object
    is being destroyed, which keeps it out of the garbage list. *)
Definition ep_reset (busy : option N) (gone : bool) (e : N) (s : node) : node :=
  let s := match d_ctrl (es s e) with
           | Some c =>
               let s := on_c c (set_k_bind None) s in
               if opt_eqb busy (Some c) then s else conn_reset_in c s
           | None => s
           end in
  let s := fold_left (fun s c => conn_reset_in c s) (d_data (es s e)) s in
  let s := on_e e (fun d => set_d_listen [] (set_d_data [] (set_d_ctrl None d))) s in
  let s := clear_ping e s in
  let s := if gone then s else gc_ep (d_ep (es s e)) s in
  on_e e (set_d_lfd false) s.
(** [connection::reset] (97-130) with [endpoint::remove_connection] (endpoint.cpp
    319-357) inlined. *)
Definition conn_reset (c : N) (s : node) : node :=
  let s := conn_close c s in
  let s := match k_bind (cs s c) with
           | None => s
           | Some e =>
               if opt_eqb (d_ctrl (es s e)) (Some c) then ep_reset (Some c) false e s
               else if memb c (d_data (es s e))
                    then let s := on_e e (fun d => set_d_data (rm c (d_data d)) d)
                                    (on_c c (set_k_bind None) s) in
                         match d_data (es s e) with
                         | [] => ep_reset (Some c) false e s
                         | _ => s
                         end
                    else s
           end in
  conn_fin c s.

(** Objects are reference counted.  An endpoint is held by the parent slot, the
    routing table, the garbage list or as the own endpoint; when the last of these
    goes, the destructor resets it.  The model keeps the object and calls [ep_drop]
    where the code drops a reference. *)
Definition ep_held (s : node) (e : N) : bool :=
  match self s with Some x => e_ref x =? e | None => false end ||
  match parent s with Some x => e_ref x =? e | None => false end ||
  existsb (fun p => e_ref (snd p) =? e) (routes s) ||
  existsb (fun x => e_ref x =? e) (gce s).
Definition ep_drop (e : N) (s : node) : node := if ep_held s e then s else ep_reset None true e s.
(** A connection is held by the timer list, the polled connections, the garbage list,
    a pending operation and the endpoint it is bound to. *)
Definition conn_held (s : node) (c : N) : bool :=
  in_timer s c || existsb (fun p => snd p =? c) (procs s) || memb c (gcc s) ||
  memb c (pend s) || memb c (lpend s) ||
  match k_bind (cs s c) with Some _ => true | None => false end.
Definition conn_drop (c : N) (s : node) : node := if conn_held s c then s else conn_reset c s.

(** ** Endpoints *)
(** [endpoint::create] (endpoint.cpp 137-179); the subnets are computed by
    [Subnet.endpoint_subnets]. *)
Definition ep_create (id : N) (subs : list range) (pid : N) (host : bytes) (s : node) : node * ep :=
  let e := {| e_ref := nexte s; e_id := id; e_subs := subs |} in
  let d := {| d_ep := e; d_pid := pid; d_host := host; d_ctrl := None; d_data := [];
              d_listen := []; d_lfd := false; d_timer := false; d_fault := 0; d_ping := 0;
              d_created := 0 |} in
  (insert_ping e (set_nexte (nexte s + 1) (set_es (upd (es s) (nexte s) d) s)), e).

(** [endpoint::add_connection] (287-317). *)
Definition add_connection (e c : N) (force_data : bool) (s : node) : node * bool :=
  match k_bind (cs s c) with
  | Some e' => (s, e' =? e)
  | None =>
      let s := if force_data || match d_ctrl (es s e) with Some _ => true | None => false end
               then on_e e (fun d => set_d_data (d_data d ++ [c]) d) s
               else on_e e (set_d_ctrl (Some c)) s in
      let s := on_c c (set_k_bind (Some e)) s in
      (match k_st (cs s c) with Handshaking => set_status c Connected s | _ => s end, true)
  end.

(** [endpoint::is_available] (359-371). *)
Definition is_available (s : node) (e : N) : bool :=
  match d_ctrl (es s e) with
  | None => false
  | Some _ => existsb (is_running s) (d_data (es s e))
  end.
(** [endpoint::add_listen] (403-416); HAS_LISTEN_PORC is never read. *)
Definition add_listen (e : N) (a : bytes) (s : node) : node :=
  match a with
  | [] => s
  | _ => on_e e (fun d => set_d_listen (d_listen d ++ [a])
                            (if is_simplex (Some a) then d else set_d_lfd true d)) s
  end.
(** [endpoint::get_stat_created_time_sec] (670-678): first use fixes the value. *)
Definition created (e : N) (s : node) : node * N :=
  if 0 <? d_created (es s e) then (s, d_created (es s e))
  else (on_e e (set_d_created (sec s)) s, sec s).

(** ** Choosing a connection (endpoint.cpp 443-526) *)
(** Score of [sort_connection_cmp_fn]; [std::list::sort] is stable. *)
Definition score (s : node) (c : N) : N :=
  (if k_sa (cs s c) then 0 else 8) + (if k_sh (cs s c) then 0 else 4).
Fixpoint ins_conn (s : node) (c : N) (l : list N) : list N :=
  match l with
  | [] => [c]
  | x :: r => if score s c <=? score s x then c :: l else x :: ins_conn s c r
  end.
Definition sort_conns (s : node) (l : list N) : list N := fold_right (ins_conn s) [] l.
(** [get_ctrl_connection] (462-476), called on the own endpoint. *)
Definition ctrl_conn (s : node) (e : ep) : option N :=
  if e_ref e =? my_ref s then None
  else match d_ctrl (es s (e_ref e)) with
       | Some c => if is_connected s c then Some c else None
       | None => None
       end.
(** [get_data_connection] (478-526).  The code sorts the list once and remembers it;
    sorting at every use gives the same order because the compared flags do not
    change while a connection is in the list. *)
Definition usable (s : node) (e : N) (c : N) : bool :=
  let me := es s (my_ref s) in
  let share_host := bytes_eqb (d_host (es s e)) (d_host me) in
  let share_pid := share_host && (d_pid (es s e) =? d_pid me) in
  is_connected s c &&
  ((share_pid && k_sa (cs s c)) || (share_host && k_sh (cs s c)) || negb (k_sh (cs s c))).
Definition data_conn (s : node) (e : ep) (fallback : bool) : option N :=
  if e_ref e =? my_ref s then None
  else match find (usable s (e_ref e)) (sort_conns s (d_data (es s (e_ref e)))) with
       | Some c => Some c
       | None => if fallback then ctrl_conn s e else None
       end.
