(** Sending, routing, the endpoint table, connecting and listening
    (src/atbus_node.cpp, src/atbus_connection.cpp, src/atbus_msg_handler.cpp). *)
From Verif Require Import Base Subnet Route Address NodeTypes NodeConn.
Local Open Scope N_scope.

Definition ver : Z := 2%Z.        (* ATBUS_PROTOCOL_VERSION and MINIMAL_VERSION *)
Definition set_src (i : N) (m : msg) : msg :=
  {| m_head := {| h_ver := h_ver (m_head m); h_type := h_type (m_head m); h_ret := h_ret (m_head m);
                  h_seq := h_seq (m_head m); h_src := i |}; m_body := m_body m |}.
Definition set_seq (i : N) (m : msg) : msg :=
  {| m_head := {| h_ver := h_ver (m_head m); h_type := h_type (m_head m); h_ret := h_ret (m_head m);
                  h_seq := i; h_src := h_src (m_head m) |}; m_body := m_body m |}.

(** [alloc_msg_seq] (node.cpp 1840-1846): a 64-bit counter, never 0. *)
Definition alloc_seq (s : node) : node * N :=
  let v := wrap64 (seqn s + 1) in
  let v := if v =? 0 then 1 else v in
  (set_seqn v s, v).
(** Next result of the transport. *)
Definition take_orc (s : node) : node * Z :=
  match orc s with [] => (s, 0%Z) | z :: r => (set_orc r s, z) end.
Definition take_salt (s : node) : node * N :=
  match salts s with [] => (s, 0) | z :: r => (set_salts r s, z) end.

(** ** Pushing to a connection *)
Definition bump (p : N * N) (n : N) : N * N := (fst p + 1, snd p + n).
(** [connection::push] (416-435) with the push functions of the three transports
    (768-779, 829-839, 846-853).  A stream socket counts a success only when the
    write callback runs. *)
Definition push (c : N) (m : msg) (s : node) : node * Z :=
  let n := x_size (cf s) m in
  let s := on_c c (fun k => set_k_start (bump (k_start k) n) k) s in
  let fail := on_c c (fun k => set_k_fail (bump (k_fail k) n) k) in
  match k_st (cs s c) with
  | Connected | Handshaking =>
      match k_kind (cs s c) with
      | KSock =>
          let (s, r) := take_orc s in
          let s := emit (TSend c m n r) s in
          ((if (r <? 0)%Z then fail s else s), r)
      | KSend =>
          let (s, r) := take_orc s in
          let s := emit (TSend c m n r) s in
          ((if (r <? 0)%Z then fail s
            else on_c c (fun k => set_k_ok (bump (k_ok k) n) k) s), r)
      | _ => (fail s, E_ACCESS_DENY)
      end
  | _ => (fail s, E_NOT_INITED)
  end.
(** [msg_handler::send_msg] (msg_handler.cpp 401-420). *)
Definition send_on (c : N) (m : msg) (s : node) : node * Z :=
  if x_msg (cf s) + 1024 <? x_size (cf s) m then (s, E_INVALID_SIZE) else push c m s.

(** ** Access tokens (node.cpp 1145-1178) *)
Definition check_hash (x : cfg) (k : key) : bool :=
  match x_tokens x with
  | [] => (y_h1 k =? 0) && (y_h2 k =? 0)
  | ts => existsb (fun t => let (a, b) := x_mac x t (y_salt k) in (y_h1 k =? a) && (y_h2 k =? b)) ts
  end.
(** The check in the registration and command handlers (e.g. msg_handler.cpp 752-758). *)
Definition keys_ok (x : cfg) (ks : list key) : bool :=
  match x_tokens x, ks with
  | [], [] => true
  | _, _ => existsb (check_hash x) ks
  end.
Fixpoint gen_keys (ts : list bytes) (s : node) : node * list key :=
  match ts with
  | [] => (s, [])
  | t :: r =>
      let (s, salt) := take_salt s in
      let (a, b) := x_mac (cf s) t salt in
      let (s, ks) := gen_keys r s in
      (s, {| y_salt := salt; y_h1 := a; y_h2 := b |} :: ks)
  end.

(** [send_reg] (msg_handler.cpp 163-246). *)
Definition send_reg (rsp : bool) (c : N) (code : Z) (seq : N) (s : node) : node * Z :=
  match self s with
  | None => (s, E_NOT_INITED)
  | Some me =>
      let (s, ks) := gen_keys (x_tokens (cf s)) s in
      send_on c
        {| m_head := {| h_ver := ver; h_type := 0%Z; h_ret := code; h_seq := seq; h_src := my_id s |};
           m_body := BReg rsp {| r_id := my_id s; r_pid := x_pid (cf s); r_host := x_host (cf s);
                                 r_chans := d_listen (es s (e_ref me)); r_keys := ks;
                                 r_nets := announce (e_subs me) |} |} s
  end.
(** [send_ping] (138-161); microseconds are left out. *)
Definition send_ping (c : N) (seq : N) (s : node) : node * Z :=
  send_on c {| m_head := {| h_ver := ver; h_type := 0%Z; h_ret := 0%Z; h_seq := seq; h_src := my_id s |};
               m_body := BPing false (sec s * 1000) |} s.

(** [node::on_new_connection] (node.cpp 1552-1574). *)
Definition on_new_connection (c : N) (s : node) : node :=
  let s := emit (TNew c) s in
  if k_fd (cs s c) && negb (k_lfd (cs s c))
  then let (s, q) := alloc_seq s in
       let (s, r) := send_reg false c 0%Z q s in
       if (r <? 0)%Z then conn_reset c s else s
  else s.

(** ** The endpoint table *)
(** [get_endpoint] (1046-1057). *)
Definition get_endpoint (s : node) (id : N) : option ep :=
  if is_parent s id then parent s
  else match find_route (routes s) id with
       | Some e => if e_id e =? id then Some e else None
       | None => None
       end.
(** [add_endpoint] (1063-1124). *)
Definition add_endpoint (e : ep) (s : node) : node * Z :=
  if fl_reset s then (s, E_CLOSING)
  else if negb (my_id s =? 0) && subnets_contain (e_subs e) (my_subs s)
  then match parent s with
       | Some _ => (s, E_INVALID_ID)
       | None =>
           let s := add_ping e (set_parent (Some e) s) in
           let s := if (nstate_eqb (nst s) NLost || nstate_eqb (nst s) NConnecting) && fl_preg s
                    then on_actived s else s in
           (emit (TAdded (e_ref e)) s, E_OK)
       end
  else if negb (my_id s =? 0) && is_child s (e_id e) &&
          negb (subnets_contain (my_subs s) (e_subs e))
  then (s, E_MASK_CONFLICT)
  else match insert_child (routes s) e with
       | (true, t) => (add_ping e (emit (TAdded (e_ref e)) (set_routes t s)), E_OK)
       | (false, _) => (s, E_MASK_CONFLICT)
       end.
(** The endpoint [remove_child] (2039-2066) takes out. *)
Definition child_at (t : coll) (id : N) : option ep := option_map snd (lower_bound t (point id)).
(** [remove_endpoint] (2222-2259); the caller drops its reference. *)
Definition remove_endpoint (id : N) (expected : option N) (s : node) : node * Z :=
  if is_parent s id
  then match parent s with
       | None => (s, E_NOT_FOUND)
       | Some p =>
           if match expected with Some x => negb (e_ref p =? x) | None => false end then (s, E_NOT_FOUND)
           else let s := set_popr (sec s + x_retry (cf s)) (set_nst NLost (set_parent None s)) in
                let s := emit (TRemoved (e_ref p)) s in
                ((if fl_act s then s else fatal_shutdown E_MASK_CONFLICT s), E_OK)
       end
  else if my_id s =? id then (s, E_INVALID_ID)
  else match remove_child (routes s) id expected, child_at (routes s) id with
       | (true, t), Some e => (emit (TRemoved (e_ref e)) (set_routes t s), E_OK)
       | _, _ => (s, E_NOT_FOUND)
       end.
(** [add_endpoint_fault] (2082-2090), [add_connection_fault] (2092-2100).  Simplified: the endpoint
    found under the id may be another one than [e]; the code destroys it here unless the
    application keeps the pointer it got from the removal callback, the model always keeps it. *)
Definition ep_fault (e : N) (s : node) : node * bool :=
  let s := emit (TFault e (e_id (d_ep (es s e))) (x_tol (cf s))) (on_e e (fun d => set_d_fault (d_fault d + 1) d) s) in
  if x_tol (cf s) <? d_fault (es s e)
  then (fst (remove_endpoint (e_id (d_ep (es s e))) None s), true)
  else (s, false).
Definition conn_fault (c : N) (s : node) : node :=
  let s := on_c c (fun k => set_k_fault (k_fault k + 1) k) s in
  if x_tol (cf s) <? k_fault (cs s c) then conn_reset c s else s.

(** ** Routing (node.cpp 971-1044, 2261-2356) *)
Definition pick (data : bool) (s : node) (e : ep) : option N :=
  if data then data_conn s e true else ctrl_conn s e.
(** The next hop of [get_remote_channel]. *)
Definition next_hop (s : node) (id : N) : option ep :=
  if is_parent s id then parent s
  else match find_route (routes s) id with
       | Some e => if ep_is_child (e_id e) (e_subs e) id then Some e
                   else if is_child s id then None else parent s
       | None => if is_child s id then None else parent s
       end.
(** [get_remote_channel]: result, endpoint, connection. *)
Definition remote (data : bool) (s : node) (id : N) : Z * option ep * option N :=
  match self s with
  | None => (E_NOT_INITED, None, None)
  | Some _ =>
      match nst s with
      | NCreated => (E_NOT_INITED, None, None)
      | _ =>
          if id =? my_id s then (E_INVALID_ID, None, None)
          else match next_hop s id with
               | None =>
                   (* a route whose endpoint does not cover [id] leaves [target] set *)
                   ((if is_child s id then E_INVALID_ID
                     else match find_route (routes s) id with
                          | Some _ => E_NO_CONNECTION | None => E_INVALID_ID end), None, None)
               | Some e =>
                   match pick data s e with
                   | None => (E_NO_CONNECTION, Some e, None)
                   | Some c => (E_OK, Some e, Some c)
                   end
               end
      end
  end.

Definition number (m : msg) (s : node) : node * msg :=
  if h_seq (m_head m) =? 0 then let (s, q) := alloc_seq s in (s, set_seq q m) else (s, m).
(** [node::send_msg] (2273-2356) without the dispatch of queued messages at the end of
    the branch for messages to itself. *)
Definition post (data : bool) (id : N) (m : msg) (s : node) : node * Z :=
  match nst s with
  | NCreated => (s, E_NOT_INITED)
  | _ =>
      if id =? my_id s
      then let (s, m) := number m s in
           match m_body m with
           | BData _ _ => (set_qdata (qdata s ++ [m]) s, E_OK)
           | BCmd _ _ => (set_qcmd (qcmd s ++ [m]) s, E_OK)
           | _ => (s, E_INVALID_MSG)
           end
      else match remote data s id with
           | (r, _, oc) =>
               if (r <? 0)%Z then (s, r)
               else match oc with
                    | None => (s, E_NO_CONNECTION)
                    | Some c => let (s, m) := number m s in send_on c m s
                    end
           end
  end.

(** [on_custom_cmd]/[on_custom_rsp] answers: [send_custom_cmd_rsp] (msg_handler.cpp
    289-346). *)
Definition send_cmd_rsp (oc : option N) (data : list bytes) (type code : Z) (seq from : N) (s : node)
  : node * Z :=
  let (s, ks) := gen_keys (x_tokens (cf s)) s in
  let m := {| m_head := {| h_ver := ver; h_type := type; h_ret := code; h_seq := seq; h_src := my_id s |};
              m_body := BCmd true {| q_from := my_id s; q_keys := ks; q_args := data |} |} in
  match oc with
  | Some c => send_on c m s
  | None => post false from m s
  end.
Definition deny_version : list bytes := [[86]].
Definition deny_token : list bytes := [[84]].
(** [on_recv_custom_cmd_req] (574-645).  The two denial texts are abbreviated. *)
Definition cmd_req (oc : option N) (h : head) (q : cmd) (s : node) : node * Z :=
  if (h_ver h <? ver)%Z
  then send_cmd_rsp oc deny_version (h_type h) E_VERSION (h_seq h) (q_from q) s
  else if match oc with None => negb (q_from q =? my_id s) | Some _ => false end then (s, E_BAD_DATA)
  else if negb (keys_ok (cf s) (q_keys q))
  then send_cmd_rsp oc deny_token (h_type h) E_ACCESS_DENY (h_seq h) (q_from q) s
  else
    let s := emit (TCmd oc (q_from q) (q_args q)) s in
    if match oc with Some c => is_running s c && k_fd (cs s c) | None => false end ||
       (my_id s =? q_from q)
    then send_cmd_rsp oc (x_reply (cf s) (q_args q)) (h_type h) 0%Z (h_seq h) (q_from q) s
    else (s, E_OK).
(** [on_recv_custom_cmd_rsp] (647-684). *)
Definition cmd_rsp (oc : option N) (h : head) (q : cmd) (s : node) : node * Z :=
  if match oc with None => negb (q_from q =? my_id s) | Some _ => false end then (s, E_BAD_DATA)
  else (emit (TCmdRsp oc (q_from q) (q_args q) (h_seq h)) s, E_OK).

(** ** Messages to itself: [dispatch_all_self_msgs] (node.cpp 1683-1780) *)
Definition as_answer (m : msg) (w : fwd) (code : Z) : msg :=
  {| m_head := {| h_ver := h_ver (m_head m); h_type := h_type (m_head m); h_ret := code;
                  h_seq := h_seq (m_head m); h_src := h_src (m_head m) |};
     m_body := BData true w |}.
Definition self_data (m : msg) (s : node) : node :=
  match m_body m with
  | BData false w =>
      let s := emit (TRecv (Some (my_ref s)) None m) s in
      if N.testbit (w_flags w) 0 then emit (TAnswer (Some (my_ref s)) None (as_answer m w 0%Z)) s else s
  | _ => s
  end.
Definition self_cmd (m : msg) (s : node) : node :=
  match m_body m with
  | BCmd false q => fst (cmd_req None (m_head m) q s)
  | BCmd true q => fst (cmd_rsp None (m_head m) q s)
  | _ => s
  end.
(** The two loops share one budget; leaving a loop because its queue is empty also
    uses up one unit.  The count of handled messages is returned. *)
Fixpoint self_data_loop (n : nat) (s : node) : node * nat * nat :=
  match n with
  | O => (s, O, O)
  | S n' =>
      match qdata s with
      | [] => (s, n', O)
      | m :: _ =>
          let s := self_data m s in
          let '(s, rest, k) := self_data_loop n' (set_qdata (tl (qdata s)) s) in
          (s, rest, match m_body m with BData false _ => S k | _ => k end)
      end
  end.
Fixpoint self_cmd_loop (n : nat) (s : node) : node * nat :=
  match n with
  | O => (s, O)
  | S n' =>
      match qcmd s with
      | [] => (s, O)
      | m :: _ =>
          let s := self_cmd m s in
          let (s, k) := self_cmd_loop n' (set_qcmd (tl (qcmd s)) s) in
          (s, S k)
      end
  end.
Definition dispatch_self (s : node) : node * nat :=
  if fl_self s then (s, O)
  else
    let s := set_fl_self true s in
    let budget := if x_loop (cf s) =? 0 then N.to_nat 10240 else N.to_nat (x_loop (cf s)) in
    let '(s, rest, k1) := self_data_loop budget s in
    let (s, k2) := self_cmd_loop rest s in
    (set_fl_self false s, (k1 + k2)%nat).
(** [node::send_msg] (2273-2356). *)
Definition send_to (data : bool) (id : N) (m : msg) (s : node) : node * Z :=
  let me := my_id s in
  let (s, r) := post data id m s in
  if (id =? me) && (0 <=? r)%Z then (fst (dispatch_self s), r) else (s, r).

(** ** Opening connections *)
Definition s_ipv4 : bytes := [105; 112; 118; 52].
Definition s_ipv6 : bytes := [105; 112; 118; 54].
Definition s_unix : bytes := [117; 110; 105; 120].
Definition s_mem : bytes := [109; 101; 109].
Definition s_shm : bytes := [115; 104; 109].
Definition s_dns : bytes := [100; 110; 115].
Definition any4 : bytes := [48; 46; 48; 46; 48; 46; 48].
Definition loop4 : bytes := [49; 50; 55; 46; 48; 46; 48; 46; 49].
Definition any6 : bytes := [58; 58].
Definition loop6 : bytes := [58; 58; 49].

Definition flags_of (sa sh : bool) (k : conn) : conn :=
  set_k_sh (k_sh k || sh) (set_k_sa (k_sa k || sa) k).
(** [connection::connect] (258-377) on a fresh connection. *)
Definition conn_connect (c : N) (a : bytes) (s : node) : node * Z :=
  match k_st (cs s c) with
  | Disconnected =>
      match parse_address a with
      | Rejected => (on_c c (set_k_addr a) s, E_ADDR_INVALID)
      | Throws | Undefined => (emit (TUb UThrow) s, E_ADDR_INVALID)
      | Parsed p =>
          let s := on_c c (set_k_addr a) s in
          if prefix_nocase s_mem (a_scheme p) || prefix_nocase s_shm (a_scheme p)
          then let (s, r) := take_orc s in
               if (r <? 0)%Z then (s, r)
               else
                 let s := on_c c (fun k => flags_of (prefix_nocase s_mem (a_scheme p)) true
                                             (set_k_kind KSend k)) s in
                 let s := set_status c (match k_bind (cs s c) with None => Handshaking | Some _ => Connected end) s in
                 (on_new_connection c s, r)
          else
            let s :=
              if prefix_nocase s_ipv4 (a_scheme p) && bytes_eqb (a_host p) any4
              then on_c c (set_k_addr (a_address (build_address s_ipv4 loop4 (a_port p)))) s
              else if prefix_nocase s_ipv6 (a_scheme p) && bytes_eqb (a_host p) any6
              then on_c c (set_k_addr (a_address (build_address s_ipv6 loop6 (a_port p)))) s
              else if prefix_nocase s_unix (a_scheme p) then on_c c (flags_of false true) s
              else s in
            let s := set_status c Connecting s in
            let (s, r) := take_orc s in
            ((if (r <? 0)%Z then s else set_pend (pend s ++ [c]) s), r)
      end
  | _ => (s, E_ALREADY_INITED)
  end.

(** Test of an unfinished attempt (node.cpp 712-722): [strncasecmp] over the length of
    the recorded address. *)
Definition pending_to (s : node) (a : bytes) (p : N * N) : bool :=
  negb (is_connected s (snd p)) && prefix_nocase (k_addr (cs s (snd p))) a.
(** [node::connect] (706-744). *)
Definition connect (a : bytes) (s : node) : node * Z :=
  match nst s with
  | NCreated => (s, E_NOT_INITED)
  | _ =>
      if existsb (pending_to s a) (connecting s) then (s, E_OK)
      else let (s, c) := conn_create s in
           if prefix_nocase p_mem a || prefix_nocase p_shm a then (s, E_ACCESS_DENY)
           else let (s, r) := conn_connect c a s in
                if (r <? 0)%Z then (s, r) else (s, E_OK)
  end.
(** [node::connect(addr, ep)] (746-793). *)
Definition connect_ep (a : bytes) (e : N) (s : node) : node * Z :=
  match nst s with
  | NCreated => (s, E_NOT_INITED)
  | _ =>
      if existsb (fun p => opt_eqb (k_bind (cs s (snd p))) (Some e) && pending_to s a p) (connecting s)
      then (s, E_OK)
      else let (s, c) := conn_create s in
           let (s, r) := conn_connect c a s in
           if (r <? 0)%Z then (s, r)
           else let (s, ok) := add_connection e c (prefix_nocase p_mem a || prefix_nocase p_shm a) s in
                (s, if ok then E_OK else E_BAD_DATA)
  end.

(** [iostream_on_listen_cb] (connection.cpp 492-521). *)
Definition listen_cb (c : N) (status : Z) (s : node) : node :=
  if (status <? 0)%Z then set_status c Disconnected s
  else let s := on_c c (fun k => set_k_lfd true (set_k_fd true k)) s in
       let s := set_status c Connected s in
       on_new_connection c (on_c c (set_k_kind KListen) s).
(** [connection::listen] (144-256) on a fresh connection.  The result of the
    transport comes from [orc]; except for a name to be resolved a listening socket
    reports at once.  The rewriting of relative unix paths concerns the host part only
    and is left out. *)
Definition conn_listen (c : N) (a : bytes) (s : node) : node * Z :=
  match k_st (cs s c) with
  | Disconnected =>
      match parse_address a with
      | Rejected => (on_c c (set_k_addr a) s, E_ADDR_INVALID)
      | Throws | Undefined => (emit (TUb UThrow) s, E_ADDR_INVALID)
      | Parsed p =>
          let s := on_c c (set_k_addr a) s in
          if prefix_nocase s_mem (a_scheme p) || prefix_nocase s_shm (a_scheme p)
          then let (s, r) := take_orc s in
               if (r <? 0)%Z then (s, r)
               else
                 let s := add_proc c (on_c c (set_k_kind KRecv) s) in
                 let s := on_c c (fun k => flags_of (prefix_nocase s_mem (a_scheme p)) true
                                             (set_k_proc true k)) s in
                 (on_new_connection c (set_status c Connected s), r)
          else
            let s := if prefix_nocase s_unix (a_scheme p) then on_c c (flags_of false true) s else s in
            let s := set_status c Connecting s in
            let (s, r) := take_orc s in
            if (r <? 0)%Z then (s, r)
            else ((if prefix_nocase s_dns (a_scheme p) then set_lpend (lpend s ++ [c]) s
                  else listen_cb c 0%Z s), r)
      end
  | _ => (s, E_ALREADY_INITED)
  end.
(** [node::listen] (674-704). *)
Definition listen (a : bytes) (s : node) : node * Z :=
  match nst s with
  | NCreated => (s, E_NOT_INITED)
  | _ =>
      let (s, c) := conn_create s in
      let (s, r) := conn_listen c a s in
      if (r <? 0)%Z then (s, r)
      else match self s with
           | None => (s, E_NOT_INITED)
           | Some me =>
               let (s, ok) := add_connection (e_ref me) c false s in
               if ok then (add_listen (e_ref me) (k_addr (cs s c)) s, E_OK)
               else (s, E_ALREADY_INITED)
           end
  end.

(** [iostream_on_connected_cb] (523-557); afterwards the pending operation gives up
    its reference. *)
Definition connected_cb (c : N) (status : Z) (s : node) : node :=
  let s := set_pend (rm c (pend s)) s in
  let s :=
    if (status <? 0)%Z then conn_reset c s
    else let s := on_c c (set_k_fd true) s in
         let s := set_status c (match k_bind (cs s c) with None => Handshaking | Some _ => Connected end) s in
         on_new_connection c (on_c c (set_k_kind KSock) s) in
  conn_drop c s.
(** [iostream_on_accepted] (617-651). *)
Definition accepted (a : bytes) (s : node) : node :=
  if (0 <? x_backlog (cf s)) && (x_backlog (cf s) <=? N.of_nat (length (connecting s))) then s
  else let (s, c) := conn_create s in
       let s := set_status c Handshaking s in
       let s := on_c c (fun k => set_k_addr a (set_k_kind KSock (set_k_fd true k))) s in
       on_new_connection c s.
(** The same callback when the accept failed: it gets no connection (channel_io_stream.cpp
    893-894, 971-972), ignores the status (618) and stores through the null pointer (644),
    unless too many connections are waiting (628-631).  What happens after that is not
    modelled. *)
Definition accept_failed (s : node) : node :=
  if (0 <? x_backlog (cf s)) && (x_backlog (cf s) <=? N.of_nat (length (connecting s))) then s
  else emit (TUb UNull) s.
(** [iostream_on_disconnected] (656-669): only while the socket still refers to the
    connection. *)
Definition linked (s : node) (c : N) : bool :=
  match k_kind (cs s c) with KSock | KListen => true | _ => false end.
Definition peer_closed (c : N) (s : node) : node := if linked s c then conn_reset c s else s.
(** [iostream_on_written] (671-703). *)
Definition written (c : N) (status : Z) (n : N) (s : node) : node :=
  if linked s c
  then let s := emit (TWrote c status n) s in
       if (status =? 0)%Z then on_c c (fun k => set_k_ok (bump (k_ok k) n) k) s
       else on_c c (fun k => set_k_fail (bump (k_fail k) n) k) s
  else s.

(** [node::disconnect] (795-822). *)
Definition node_disconnect (id : N) (s : node) : node * Z :=
  match parent s with
  | Some p =>
      if id =? e_id p
      then let s := emit (TRemoved (e_ref p)) (set_parent None (emit (TAsked id) s)) in
           (ep_drop (e_ref p) (ep_reset None false (e_ref p) s), E_OK)
      else
        match find_route (routes s) id with
        | Some e => if e_id e =? id
                    then let s := emit (TAsked id) s in
                         let s := match remove_child (routes s) id None, child_at (routes s) id with
                                  | (true, t), Some x => emit (TRemoved (e_ref x)) (set_routes t s)
                                  | _, _ => s
                                  end in
                         (ep_reset None false (e_ref e) s, E_OK)
                    else (s, E_NOT_FOUND)
        | None => (s, E_NOT_FOUND)
        end
  | None =>
      match find_route (routes s) id with
      | Some e => if e_id e =? id
                  then let s := emit (TAsked id) s in
                       let s := match remove_child (routes s) id None, child_at (routes s) id with
                                | (true, t), Some x => emit (TRemoved (e_ref x)) (set_routes t s)
                                | _, _ => s
                                end in
                       (ep_reset None false (e_ref e) s, E_OK)
                  else (s, E_NOT_FOUND)
      | None => (s, E_NOT_FOUND)
      end
  end.
