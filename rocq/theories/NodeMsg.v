(** Handling of received messages (src/atbus_msg_handler.cpp, node::on_recv in
    src/atbus_node.cpp). *)
From Verif Require Import Base Subnet Route Address NodeTypes NodeConn NodeCore.
Local Open Scope N_scope.

(** ** Data messages *)
Definition set_ret_src (code : Z) (src : N) (h : head) : head :=
  {| h_ver := h_ver h; h_type := h_type h; h_ret := code; h_seq := h_seq h; h_src := src |}.
Definition add_router (w : fwd) (id : N) : fwd :=
  {| w_from := w_from w; w_to := w_to w; w_router := w_router w ++ [id];
     w_content := w_content w; w_flags := w_flags w |}.
(** The response built by [send_transfer_rsp]: from and to exchanged, the own id
    appended to the router list unless it is already last. *)
Definition turn (me : N) (w : fwd) : fwd :=
  let w' := {| w_from := w_to w; w_to := w_from w; w_router := w_router w;
               w_content := w_content w; w_flags := w_flags w |} in
  if match w_router w with [] => false | _ => last (w_router w) 0 =? me end then w'
  else add_router w' me.
(** [send_transfer_rsp] (247-287). *)
Definition transfer_rsp (h : head) (w : fwd) (code : Z) (s : node) : node * Z :=
  send_to false (w_from w)
    {| m_head := set_ret_src code (my_id s) h; m_body := BData true (turn (my_id s) w) |} s.

(** [forward_data_message] (29-69): result, [out_endpoint] and the source id the
    message carries afterwards. *)
Definition forward (rsp : bool) (h : head) (w : fwd) (from to : N) (s : node)
  : node * Z * option ep * head :=
  if to =? 0 then (s, E_PARAMS, None, h)
  else if my_id s =? to then (s, E_PARAMS, None, h)
  else match remote true s to with
       | (_, Some e, Some c) =>
           if negb (from =? 0) && (e_id e =? from) then (s, E_SRC_DST, Some e, h)
           else let h := set_ret_src (h_ret h) (my_id s) h in
                let (s, r) := send_on c {| m_head := h; m_body := BData rsp w |} s in
                (s, r, Some e, h)
       | (r, oe, _) => (s, r, oe, h)
       end.

(** [send_node_connect_sync] (348-399): the first address of the target that another
    host, or a process on the same host, can use. *)
Definition sync_address (s : node) (src dst : N) : option bytes :=
  let same := match get_endpoint s src with
              | Some e => bytes_eqb (d_host (es s (e_ref e))) (d_host (es s dst))
              | None => false
              end in
  find (fun a => negb (prefix_nocase p_mem a || prefix_nocase p_shm a) &&
                 (same || negb (prefix_nocase p_unix a)))
    (d_listen (es s dst)).
Definition connect_sync (src dst : N) (s : node) : node * Z :=
  match sync_address s src dst with
  | Some (x :: a) =>
      let (s, q) := alloc_seq s in
      send_to false src
        {| m_head := {| h_ver := ver; h_type := 0%Z; h_ret := 0%Z; h_seq := q; h_src := my_id s |};
           m_body := BConn (x :: a) |} s
  | _ => (s, E_OK)
  end.

(** [on_recv_data_transfer_req] (422-525). *)
Definition data_req (c : N) (h : head) (w : fwd) (s : node) : node * Z :=
  if (h_ver h <? ver)%Z then transfer_rsp h w E_VERSION s
  else if negb (is_connected s c) then (s, E_NOT_READY)
  else if w_to w =? my_id s
  then let s := emit (TRecv (k_bind (cs s c)) (Some c) {| m_head := h; m_body := BData false w |}) s in
       if N.testbit (w_flags w) 0 then transfer_rsp h w E_OK s else (s, E_OK)
  else if x_ttl (cf s) <=? N.of_nat (length (w_router w)) then transfer_rsp h w E_TTL s
  else
    let from := h_src h in
    let w := add_router w (my_id s) in
    let '(s, res, oe, h) := forward false h w from (w_to w) s in
    if (0 <=? res)%Z && is_child s (w_to w)
    then match oe with
         | Some e => if d_lfd (es s (e_ref e)) && is_child s from && is_child s (e_id e)
                     then connect_sync from (e_ref e) s else (s, res)
         | None => (s, res)
         end
    else
      let '(s, res, h) :=
        if (res <? 0)%Z && negb (is_parent s (h_src h)) && negb (is_child s (w_to w))
        then match parent s with
             | Some p =>
                 if match oe with None => true | Some e => negb (is_parent s (e_id e)) end
                 then let '(s, r, _, h) := forward false h w from (e_id p) s in (s, r, h)
                 else (s, res, h)
             | None => (s, res, h)
             end
        else (s, res, h) in
      if (res <? 0)%Z || N.testbit (w_flags w) 0 then transfer_rsp h w res s else (s, res).

(** [on_recv_data_transfer_rsp] (527-572). *)
Definition data_rsp (c : N) (h : head) (w : fwd) (s : node) : node * Z :=
  if negb (is_connected s c) then (s, E_NOT_READY)
  else if w_to w =? my_id s
  then (emit (TAnswer (k_bind (cs s c)) (Some c) {| m_head := h; m_body := BData true w |}) s, E_OK)
  else let '(s, r, _, _) := forward true h w (h_src h) (w_to w) s in (s, r).

(** [on_recv_node_sync_req], [on_recv_node_sync_rsp] (686-722). *)
Definition sync_msg (rsp : bool) (c : N) (h : head) (s : node) : node * Z :=
  if negb (is_connected s c) then (s, E_NOT_READY)
  else if negb rsp && (h_ver h <? ver)%Z then (s, E_VERSION) else (s, E_OK).

(** ** Registration *)
(** A refused request: the refusal is sent; if that fails the connection is reset
    (744-785). *)
Definition reg_deny (c : N) (code : Z) (seq : N) (s : node) : node * Z :=
  let (s, r) := send_reg true c code seq s in
  ((if (r <? 0)%Z then conn_reset c s else s), r).

(** Whether the peer can open a stream connection to one of the own addresses
    (909-923). *)
Definition same_host (s : node) (e : N) : bool := bytes_eqb (d_host (es s e)) (x_host (cf s)).
Definition same_pid (s : node) (e : N) : bool := d_pid (es s e) =? x_pid (cf s).
Definition reachable_by (s : node) (e : N) : bool :=
  existsb (fun a => is_duplex (Some a) &&
             ((same_host s e && same_pid s e) || negb (is_local_process (Some a)) ||
              same_host s e || negb (is_local_host (Some a))))
    (d_listen (es s (my_ref s))).
(** The loop over the announced channels (926-973): [has] is [has_data_conn]. *)
Fixpoint open_channels (e : ep) (can : bool) (chans : list bytes) (has : bool) (s : node) : node * bool :=
  match chans with
  | [] => (s, has)
  | a :: r =>
      match a with
      | [] => open_channels e can r has s
      | _ =>
          let wait := can && (e_id e <? my_id s) in
          let has := has || wait in
          if wait && is_duplex (Some a) then open_channels e can r has s
          else if is_local_host (Some a) && negb (same_host s (e_ref e)) then open_channels e can r has s
          else if is_local_process (Some a) && negb (same_pid s (e_ref e)) then open_channels e can r has s
          else if negb (my_id s =? 0) && negb (e_id e =? 0)
          then let (s, res) := connect_ep a (e_ref e) s in
               if (res <? 0)%Z then open_channels e can r has s
               else open_channels e can r true (add_listen (e_ref e) a s)
          else open_channels e can r true (add_listen (e_ref e) a s)
      end
  end.
(** What follows a successful [add_endpoint] (903-985). *)
Definition welcome (c : N) (e : ep) (r : reg) (s : node) : node :=
  let (s, _) := add_connection (e_ref e) c false s in
  let can := reachable_by s (e_ref e) in
  let (s, has) := open_channels e can (r_chans r) false s in
  if has || can then s else gc_ep e s.
(** The [do … while (false)] block of [on_recv_node_reg_req] (791-986): the code of
    the response.  Undefined shifts end the block. *)
Definition reg_body (c : N) (r : reg) (s : node) : node * Z :=
  if is_connected s c
  then match k_bind (cs s c) with
       | Some e => if e_id (d_ep (es s e)) =? r_id r then (s, E_OK)
                   else (conn_reset c s, E_ID_NOT_MATCH)
       | None => (conn_reset c s, E_ID_NOT_MATCH)
       end
  else if r_id r =? 0 then (on_c c (set_k_tmp true) s, E_OK)
  else
    match get_endpoint s (r_id r) with
    | Some e =>
        if negb (my_id s =? 0) &&
           negb ((d_pid (es s (e_ref e)) =? r_pid r) && bytes_eqb (d_host (es s (e_ref e))) (r_host r))
        then (s, E_ID_CONFLICT)
        else let (s, ok) := add_connection (e_ref e) c (k_sh (cs s c)) s in
             (s, if ok then E_OK else E_NO_CONNECTION)
    | None =>
        match reg_confs (r_id r) (r_nets r) with
        | None => (emit (TUb UShift) s, E_BAD_DATA)
        | Some confs =>
            if is_child s (r_id r) && negb (subnets_contain_conf (my_subs s) confs)
            then (s, E_MASK_CONFLICT)
            else
              match endpoint_subnets (r_id r) confs with
              | None => (emit (TUb UShift) s, E_BAD_DATA)
              | Some subs =>
                  let (s, e) := ep_create (r_id r) subs (r_pid r) (r_host r) s in
                  let bad :=
                    if bytes_eqb (k_addr (cs s c)) (x_parent (cf s))
                    then match self s with
                         | None => E_NOT_INITED
                         | Some _ => if subnets_contain (e_subs e) (my_subs s) then E_OK
                                     else E_MASK_CONFLICT
                         end
                    else E_OK in
                  if negb (bad =? E_OK)%Z
                  then let s := match nst s with NConnecting => fatal_shutdown bad s | _ => s end in
                       (gc_ep e (conn_reset c s), bad)
                  else let (s, res) := add_endpoint e s in
                       if (res <? 0)%Z then (ep_drop (e_ref e) s, res)
                       else (welcome c e r s, E_OK)
              end
        end
    end.
(** [on_recv_node_reg_req] (724-1003). *)
Definition reg_req (c : N) (h : head) (r : reg) (s : node) : node * Z :=
  if (h_ver h <? ver)%Z then reg_deny c E_VERSION (h_seq h) s
  else if negb (keys_ok (cf s) (r_keys r)) then reg_deny c E_ACCESS_DENY (h_seq h) s
  else
    let (s, code) := reg_body c r s in
    if k_fd (cs s c)
    then let (s, ret) := send_reg true c code (h_seq h) s in
         ((if (code <? 0)%Z then conn_reset c s else s), ret)
    else (s, E_OK).

(** [on_parent_reg_done] (node.cpp 1615-1624). *)
Definition parent_reg_done (s : node) : node :=
  let s := set_fl_preg true s in
  if sec s + x_ping (cf s) <? popr s then set_popr (sec s + x_ping (cf s)) s else s.
(** [on_recv_node_reg_rsp] (1005-1091). *)
Definition reg_rsp (c : N) (h : head) (r : reg) (s : node) : node * Z :=
  let s := emit (TReg c (h_ret h)) s in
  let ok := keys_ok (cf s) (r_keys r) in
  if negb ok || (h_ret h <? 0)%Z
  then
    let s := match k_bind (cs s c) with Some e => gc_ep (d_ep (es s e)) s | None => s end in
    let code := if (h_ret h <? 0)%Z then h_ret h else E_ACCESS_DENY in
    let s := if bytes_eqb (k_addr (cs s c)) (x_parent (cf s)) && negb (fl_act s)
             then fatal_shutdown code s else s in
    (conn_reset c s, code)
  else
    match nst s with
    | NConnecting =>
        if is_parent s (r_id r) then (on_actived (parent_reg_done s), E_OK)
        else match confs_contain_id (r_nets r) (my_id s) with
             | Some true => (parent_reg_done s, E_OK)
             | Some false => (s, E_OK)
             | None => (emit (TUb UShift) s, E_OK)
             end
    | _ => (s, E_OK)
    end.

(** [on_recv_node_conn_syn] (1093-1130). *)
Definition conn_syn (c : N) (h : head) (a : bytes) (s : node) : node * Z :=
  if (h_ver h <? ver)%Z then (s, E_VERSION)
  else if negb (is_connected s c) then (s, E_NOT_READY)
  else match a with
       | [] => (s, E_BAD_DATA)
       | _ => (fst (connect a s), E_OK)
       end.

(** [on_recv_node_ping] (1132-1176), [on_recv_node_pong] (1178-1202). *)
Definition ping_msg (c : N) (h : head) (tp : N) (s : node) : node * Z :=
  let s := emit (TPing (k_bind (cs s c)) {| m_head := h; m_body := BPing false tp |}) s in
  match k_bind (cs s c) with
  | None => (s, E_OK)
  | Some _ =>
      send_on c {| m_head := {| h_ver := ver; h_type := h_type h;
                                h_ret := if (h_ver h <? ver)%Z then E_VERSION else 0%Z;
                                h_seq := h_seq h; h_src := my_id s |};
                   m_body := BPing true tp |} s
  end.
Definition pong_msg (c : N) (h : head) (tp : N) (s : node) : node * Z :=
  let s := emit (TPong (k_bind (cs s c)) {| m_head := h; m_body := BPing true tp |}) s in
  match k_bind (cs s c) with
  | Some e => if h_seq h =? d_ping (es s e) then (on_e e (set_d_ping 0) s, E_OK) else (s, E_OK)
  | None => (s, E_OK)
  end.

(** [dispatch_msg] (73-111) for a message from a connection. *)
Definition dispatch_msg (c : N) (m : msg) (s : node) : node * Z :=
  let h := m_head m in
  match m_body m with
  | BData false w => data_req c h w s
  | BData true w => data_rsp c h w s
  | BCmd false q => cmd_req (Some c) h q s
  | BCmd true q => cmd_rsp (Some c) h q s
  | BSync rsp => sync_msg rsp c h s
  | BReg false r => reg_req c h r s
  | BReg true r => reg_rsp c h r s
  | BConn a => conn_syn c h a s
  | BPing false tp => ping_msg c h tp s
  | BPing true tp => pong_msg c h tp s
  | BOther => (s, E_INVALID_MSG)
  end.

(** ** Receiving *)
(** What a transport hands over: an error, bytes that do not decode, or a message;
    with the number of bytes. *)
Inductive item := RErr (status : Z) | RBad (n : N) | RMsg (n : N) (m : msg).
(** [unpack] (connection.cpp 855-881): the source id is that of the bound endpoint. *)
Definition stamp (s : node) (c : N) (m : msg) : msg :=
  match k_bind (cs s c) with
  | Some e => let i := e_id (d_ep (es s e)) in if i =? 0 then m else set_src i m
  | None => m
  end.
Definition fault_of (c : N) (s : node) : node :=
  let s := match k_bind (cs s c) with
           | Some e => let (s, gone) := ep_fault e s in if gone then ep_drop e s else s
           | None => s
           end in
  conn_fault c s.
(** [node::on_recv] (node.cpp 1439-1486). *)
Definition on_recv (c : N) (m : msg) (s : node) : node :=
  let (s, r) := dispatch_msg c m s in
  if (r <? 0)%Z then fault_of c s
  else
    let s := match k_bind (cs s c) with Some e => emit (TGood e) (on_e e (set_d_fault 0) s) | None => s end in
    on_c c (set_k_fault 0) s.
(** One item: [iostream_on_recv_cb] (connection.cpp 572-615), or one turn of the loops
    in [shm_proc_fn]/[mem_proc_fn] (706-853). *)
Definition recv_item (c : N) (i : item) (s : node) : node :=
  match i with
  | RErr _ => fault_of c s
  | RBad n => on_c c (fun k => set_k_pull (bump (k_pull k) n) k) s
  | RMsg n m =>
      let s := on_c c (fun k => set_k_pull (bump (k_pull k) n) k) s in
      on_recv c (stamp s c m) s
  end.
