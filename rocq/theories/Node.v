(** The node API, the periodic work and the transport callbacks
    (src/atbus_node.cpp, src/atbus_connection.cpp): one step per call. *)
From Verif Require Import Base Subnet Route Address NodeTypes NodeConn NodeCore NodeMsg.
Local Open Scope N_scope.

(** ** Taking the node down: [node::reset] (node.cpp 270-387) *)
(** [while (dispatch_all_self_msgs() > 0);] (279-283).  Every counted message either
    disappears or turns one request into one response, so the number of rounds given
    by [reset] suffices. *)
Fixpoint drain (n : nat) (s : node) : node :=
  match n with
  | O => s
  | S n' => let (s, k) := dispatch_self s in match k with O => s | _ => drain n' s end
  end.
Definition drop_ep (s : node) (e : N) : node := ep_drop e s.
(** Lines 316-324: unfinished connections, front first. *)
Fixpoint drop_connecting (n : nat) (s : node) : node :=
  match n with
  | O => s
  | S n' =>
      match connecting s with
      | [] => s
      | (_, c) :: _ =>
          let s := conn_reset c s in
          let s := match connecting s with
                   | (t, c') :: r => if c' =? c then set_connecting r s else s
                   | [] => s
                   end in
          drop_connecting n' s
      end
  end.
(** Lines 359-363: the event loop runs until the pending operations have finished;
    the callbacks run, with results from [orc]. *)
Fixpoint finish_connects (l : list N) (s : node) : node :=
  match l with
  | [] => s
  | c :: r => let (s, z) := take_orc s in finish_connects r (connected_cb c z s)
  end.
Definition listened (c : N) (z : Z) (s : node) : node :=
  conn_drop c (listen_cb c z (set_lpend (rm c (lpend s)) s)).
Fixpoint finish_listens (l : list N) (s : node) : node :=
  match l with
  | [] => s
  | c :: r => let (s, z) := take_orc s in finish_listens r (listened c z s)
  end.
Definition reset (s : node) : node :=
  if fl_reset s then s
  else
    let s := emit TBegin (set_fl_reset true s) in
    let s := drain (S (2 * length (qcmd s) + length (qdata s))) s in
    let s := fold_left (fun s p => conn_reset (snd p) s) (procs s) s in
    let s := set_procs [] s in
    let s := match parent s with
             | Some p => ep_drop (e_ref p) (fst (remove_endpoint (e_id p) None s))
             | None => s
             end in
    let old := map (fun p => e_ref (snd p)) (routes s) in
    let s := fold_left (fun s e => emit (TRemoved e) s) old (set_routes [] s) in
    let s := fold_left drop_ep old s in
    let s := drop_connecting (length (connecting s)) s in
    let s := match self s with Some e => ep_reset None false (e_ref e) s | None => s end in
    let s := set_fl_gcreset true s in
    let old := map e_ref (gce s) in
    let s := fold_left drop_ep old (set_gce [] s) in
    let s := set_gcc [] s in
    let s := fold_left (fun s p => clear_ping (snd p) (ep_reset None false (snd p) s)) (pings s) s in
    let s := set_pings [] s in
    let s := finish_connects (pend s) s in
    let s := finish_listens (lpend s) s in
    let s := set_nst NCreated s in
    let s := set_fl_reset false (set_fl_gcreset false (set_fl_act false (set_fl_preg false
             (set_fl_shut false (set_fl_self false (set_fl_gce false (set_fl_gcc false s))))))) in
    emit TReset (set_qdata [] (set_qcmd [] s)).

(** [node::init] (189-223). [access_token_max_number] is taken to be already applied
    to the token list. *)
Definition init (id : N) (x : cfg) (s : node) : node * Z :=
  let s := match nst s with NCreated => s | _ => reset s end in
  let s := set_cf x s in
  match endpoint_subnets id (x_nets x) with
  | None => (emit (TUb UShift) s, E_PARAMS)
  | Some subs =>
      let old := self s in
      let (s, e) := ep_create id subs (x_pid x) (x_host x) s in
      let s := set_self (Some e) s in
      let s := match old with Some o => ep_drop (e_ref o) s | None => s end in
      let s := clear_ping (e_ref e) s in
      (set_nst NInited (set_qdata [] (set_qcmd [] s)), E_OK)
  end.

(** [node::start] (225-262). *)
Definition start (now : N) (s : node) : node * Z :=
  match nst s with
  | NCreated => (s, E_NOT_INITED)
  | _ =>
      let s := set_sec now s in
      if negb (my_id s =? 0) && negb (bytes_eqb (x_parent (cf s)) [])
      then match parent s with
           | Some _ => (s, E_OK)
           | None =>
               let (s, r) := connect (x_parent (cf s)) s in
               if (0 <=? r)%Z
               then (set_nst NConnecting (set_popr (sec s + x_first (cf s)) s), E_OK)
               else (set_nst NLost (set_popr (sec s + x_retry (cf s)) s), E_OK)
           end
      else (on_actived s, E_OK)
  end.

(** ** Sending *)
(** [node::send_data] (837-895); [seq] is the caller's number or 0. *)
Definition send_data (to : N) (type : Z) (content : bytes) (want : bool) (seq : N) (s : node) : node * Z :=
  match nst s with
  | NCreated => (s, E_NOT_INITED)
  | _ =>
      if x_msg (cf s) <? N.of_nat (length content) then (s, E_INVALID_SIZE)
      else
        let (s, q) := if seq =? 0 then alloc_seq s else (s, seq) in
        send_to true to
          {| m_head := {| h_ver := ver; h_type := type; h_ret := 0%Z; h_seq := q; h_src := my_id s |};
             m_body := BData false
               {| w_from := my_id s; w_to := to; w_router := [my_id s]; w_content := content;
                  w_flags := if want then 1 else 0 |} |} s
  end.
(** [node::send_custom_cmd] (897-969). *)
Definition cmd_length (x : cfg) (args : list bytes) : N :=
  fold_right (fun a n => N.of_nat (length a) + 2 + n) (x_cmd x) args.
Definition send_custom (to : N) (args : list bytes) (seq : N) (s : node) : node * Z :=
  match nst s with
  | NCreated => (s, E_NOT_INITED)
  | _ =>
      if x_msg (cf s) <? cmd_length (cf s) args then (s, E_INVALID_SIZE)
      else
        let (s, q) := if seq =? 0 then alloc_seq s else (s, seq) in
        let (s, ks) := gen_keys (x_tokens (cf s)) s in
        send_to true to
          {| m_head := {| h_ver := ver; h_type := 0%Z; h_ret := 0%Z; h_seq := q; h_src := my_id s |};
             m_body := BCmd false {| q_from := my_id s; q_keys := ks; q_args := args |} |} s
  end.

(** ** Periodic work *)
(** [shm_proc_fn]/[mem_proc_fn] (connection.cpp 706-853): at most [loop_times]
    items.  Once the connection has been reset the channel pointer is null and the next
    receive reports an error. *)
Fixpoint proc_items (n : nat) (c : N) (l : list item) (s : node) : node :=
  match n with
  | O => s
  | S n' =>
      match k_kind (cs s c) with
      | KRecv =>
          match l with
          | [] => s
          | RErr z :: _ => recv_item c (RErr z) s
          | i :: r => proc_items n' c r (recv_item c i s)
          end
      | _ => recv_item c (RErr E_PARAMS) s
      end
  end.
Definition in_procs (s : node) (c : N) : bool := existsb (fun p => snd p =? c) (procs s).
(** The loop over [proc_connections_] (node.cpp 417-420) in the order of the map,
    which is not specified: [feed] lists the connections with what they receive.  An
    entry that erases itself leaves the loop with an invalid iterator.  *)
Definition proc_one (s : node) (p : N * list item) : node :=
  let (c, l) := p in
  if in_procs s c && is_connected s c && match k_kind (cs s c) with KRecv => true | _ => false end
  then let s := proc_items (N.to_nat (x_loop (cf s))) c l s in
       if in_procs s c then s else emit (TUb UIterator) s
  else s.

(** Unfinished connections that ran out of time (422-457). *)
Fixpoint sweep (n : nat) (now : N) (s : node) : node :=
  match n with
  | O => s
  | S n' =>
      match connecting s with
      | [] => s
      | (t, c) :: r =>
          if is_connected s c then sweep n' now (set_connecting r s)
          else if now <=? t then s
          else
            let s := conn_reset c s in
            let s := match connecting s with
                     | (t', c') :: r' => if c' =? c then set_connecting r' (emit (TInvalid c) s) else s
                     | [] => s
                     end in
            sweep n' now s
      end
  end.

(** [ping_endpoint] (1785-1824).  [held]: the caller keeps the endpoint alive. *)
Definition fault_drop (held : bool) (e : N) (s : node) : node * bool :=
  let (s, gone) := ep_fault e s in
  ((if gone && negb held then ep_drop e s else s), gone).
Definition ping_endpoint (held : bool) (e : N) (s : node) : node * Z :=
  let (s, gone) := if d_ping (es s e) =? 0 then (s, false) else fault_drop held e s in
  if gone then (s, E_FAULT)
  else match self s with
  | None => (s, E_NOT_INITED)
  | Some _ =>
      if my_id s =? 0 then (s, E_OK)
      else match ctrl_conn s (d_ep (es s e)) with
           | None => (fst (fault_drop held e s), E_OK)
           | Some c =>
               let (s, q) := alloc_seq s in
               let (s, r) := send_ping c q s in
               if (r <? 0)%Z then (fst (fault_drop held e s), r)
               else
                 let s := match data_conn s (d_ep (es s e)) false with
                          | Some _ => s
                          | None =>
                              let (s, gone) := ep_fault e s in
                              if gone && negb held && negb (ep_held s e)
                              then emit (TUb UFreed) (ep_drop e s) else s
                          end in
                 (on_e e (set_d_ping q) s, E_OK)
           end
  end.
(** Out of time and still without a usable data connection. *)
Definition idle_out (now : N) (e : N) (s : node) : node * bool :=
  if is_available s e then (s, false)
  else let (s, t) := created e s in (s, t + x_first (cf s) <? now).
(** The parent timer (459-495). *)
Definition parent_op (now : N) (s : node) : node :=
  if negb (my_id s =? 0) && negb (bytes_eqb (x_parent (cf s)) []) && negb (popr s =? 0) && (popr s <? now)
  then
    match match parent s with Some p => ctrl_conn s p | None => None end, parent s with
    | Some _, Some p =>
        let (s, out) := idle_out now (e_ref p) s in
        let s := if out then gc_ep p s else fst (ping_endpoint false (e_ref p) s) in
        set_popr (now + x_ping (cf s)) s
    | _, _ =>
        let (s, r) := connect (x_parent (cf s)) s in
        if (r <? 0)%Z then set_popr (now + x_retry (cf s)) s
        else set_nst NConnecting (set_popr (now + x_first (cf s)) s)
    end
  else s.

(** The ping loop (498-552).  [nx] is [next_ep]; [None] means the loop is still
    running when the fuel is used up. *)
Definition release (nx : option N) (s : node) : node :=
  match nx with Some e => ep_drop e s | None => s end.
Fixpoint ping_loop (fuel : nat) (now : N) (nx : option N) (s : node) : option node :=
  match fuel with
  | O => None
  | S f =>
      match pings s with
      | [] => Some (release nx s)
      | (t, e0) :: _ =>
          if now <? t then Some (release nx s)
          else
            let e := match nx with Some e => e | None => e0 end in
            let (s, out) := idle_out now e s in
            if out then ping_loop f now (Some e) (add_ping (d_ep (es s e)) (gc_ep (d_ep (es s e)) s))
            else
              let s := if match parent s with Some p => e_ref p =? e | None => false end then s
                       else fst (ping_endpoint true e s) in
              let s := add_ping (d_ep (es s e)) s in
              match pings s with
              | [] => Some (ep_drop e s)
              | (t2, e2) :: r =>
                  if now <? t2 then Some (ep_drop e s)
                  else if negb (t2 =? t) then ping_loop f now None (ep_drop e s)
                  else if e2 =? e then ping_loop f now None (ep_drop e (set_pings r s))
                  else ping_loop f now (Some e2) (ep_drop e s)
              end
      end
  end.

(** Garbage lists (569-596, and the same code in [poll]). *)
Definition gc_one (s : node) (e : ep) : node :=
  let s := emit (TCheck (e_ref e) (d_ctrl (es s (e_ref e))) (filter (is_running s) (d_data (es s (e_ref e))))) s in
  if is_available s (e_ref e) then s
  else fst (remove_endpoint (e_id e) (Some (e_ref e)) (ep_reset None false (e_ref e) s)).
Definition collect (s : node) : node :=
  let s :=
    match gce s with
    | [] => s
    | l =>
        let s := fold_left gc_one l (set_fl_gce true (set_gce [] s)) in
        let s := set_gce [] s in
        set_fl_gce false (fold_left drop_ep (map e_ref l) s)
    end in
  match gcc s with
  | [] => s
  | l => set_fl_gcc false (fold_left (fun s c => conn_drop c s) l (set_gcc [] (set_fl_gcc true s)))
  end.
Definition stop_if_shut (s : node) : node := if fl_shut s then reset s else s.

(** [node::proc] (389-611). *)
Definition proc (fuel : nat) (now : N) (feed : list (N * list item)) (s : node) : option node :=
  let s := if sec s <? now then set_sec now s else s in
  match nst s with
  | NCreated => Some s
  | _ =>
      if fl_shut s then Some (reset (fst (dispatch_self s)))
      else
        let s := fold_left proc_one feed s in
        let s := sweep (length (connecting s)) now s in
        let s := parent_op now s in
        match ping_loop fuel now None s with
        | None => None
        | Some s => Some (stop_if_shut (collect (fst (dispatch_self s))))
        end
  end.

(** ** Transport callbacks *)
Inductive io :=
| IConnected (c : N) (status : Z)        (* a connect operation finished *)
| IListened (c : N) (status : Z)         (* a listen operation finished *)
| IAccepted (a : bytes)                  (* a peer connected *)
| IClosed (c : N)                        (* the socket was closed *)
| IWritten (c : N) (status : Z) (n : N)  (* a write finished *)
| IRecv (c : N) (i : item)               (* data or an error arrived *)
| IAcceptFailed.                         (* a peer connected, accepting it failed *)
(** A callback is only run for an operation that is pending or a socket that is still
    linked to the connection; without a channel (before [init], after [reset]) there are
    no callbacks. *)
Definition io_step (i : io) (s : node) : node :=
  match nst s with NCreated => s | _ =>
  match i with
  | IConnected c z => if memb c (pend s) then connected_cb c z s else s
  | IListened c z => if memb c (lpend s) then listened c z s else s
  | IAccepted a => accepted a s
  | IClosed c => peer_closed c s
  | IWritten c z n => written c z n s
  | IRecv c i => match k_kind (cs s c) with KSock => recv_item c i s | _ => s end
  | IAcceptFailed => accept_failed s
  end end.
(** [node::poll] (613-672). *)
Definition poll (l : list io) (s : node) : node :=
  if fl_shut s then reset (fst (dispatch_self s))
  else stop_if_shut (collect (fst (dispatch_self (fold_left (fun s i => io_step i s) l s)))).

(** ** Calls *)
Inductive event :=
| EInit (id : N) (x : cfg)
| EStart (now : N)
| EListen (a : bytes)
| EConnect (a : bytes)
| EConnectEp (a : bytes) (id : N)        (* connect(addr, get_endpoint(id)) *)
| EDisconnect (id : N)
| ESend (to : N) (type : Z) (content : bytes) (want : bool) (seq : N)
| ECmd (to : N) (args : list bytes) (seq : N)
| EShutdown (reason : Z)
| EReset
| EProc (now : N) (feed : list (N * list item))
| EPoll (l : list io)
| EIo (i : io)
| EWorld (o : list Z) (salt : list N).   (* fixes what the environment will answer *)
Definition step_ret (fuel : nat) (ev : event) (s : node) : option (node * Z) :=
  match ev with
  | EInit id x => Some (init id x s)
  | EStart now => Some (start now s)
  | EListen a => Some (listen a s)
  | EConnect a => Some (connect a s)
  | EConnectEp a id =>
      Some (match get_endpoint s id with Some e => connect_ep a (e_ref e) s | None => (s, E_PARAMS) end)
  | EDisconnect id => Some (node_disconnect id s)
  | ESend to ty b w q => Some (send_data to ty b w q s)
  | ECmd to args q => Some (send_custom to args q s)
  | EShutdown z => Some (shutdown z s, E_OK)
  | EReset => Some (reset s, E_OK)
  | EProc now feed => option_map (fun s => (s, E_OK)) (proc fuel now feed s)
  | EPoll l => Some (poll l s, E_OK)
  | EIo i => Some (io_step i s, E_OK)
  | EWorld o l => Some (set_salts l (set_orc o s), E_OK)
  end.
Definition step (fuel : nat) (ev : event) (s : node) : option node :=
  option_map fst (step_ret fuel ev s).
Fixpoint run (fuel : nat) (evs : list event) (s : node) : option node :=
  match evs with
  | [] => Some s
  | ev :: r => match step fuel ev s with Some s' => run fuel r s' | None => None end
  end.
(** States a node can be in. *)
Definition reachable (s : node) : Prop := exists fuel evs, run fuel evs new_node = Some s.
