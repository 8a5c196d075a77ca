(** The way of one data message through a network of nodes.  Nothing is assumed about the
    topology or about what the nodes did before: every receipt happens at some node, in
    some state it can reach, on any of its connections.  Each message a transport took
    is received at most once; it may be lost. *)
From Verif Require Import Base Subnet Route Address NodeTypes NodeConn NodeCore NodeMsg Node NodeReach.
Local Open Scope N_scope.

(** What one receipt adds: the data messages of one direction the transport took, the
    responses it was given, the messages handed to the receive callback and to the
    response callback.  Messages a node sent to itself are not counted. *)
Definition passed_on (rsp : bool) (l : list tr) : list msg :=
  flat_map (fun t => match t with
    | TSend _ m _ z => match m_body m with BData b _ => if Bool.eqb b rsp && (0 <=? z)%Z then [m] else [] | _ => [] end
    | _ => [] end) l.
Definition replies (l : list tr) : list msg :=
  flat_map (fun t => match t with TSend _ m _ _ => match m_body m with BData true _ => [m] | _ => [] end | _ => [] end) l.
Definition handed (l : list tr) : list msg := flat_map (fun t => match t with TRecv _ (Some _) m => [m] | _ => [] end) l.
Definition answered (l : list tr) : list msg := flat_map (fun t => match t with TAnswer _ (Some _) m => [m] | _ => [] end) l.

(** A request [m0]: messages under way, number of forwards, messages handed to receive
    callbacks, responses sent.  [P] restricts the nodes and their states. *)
Inductive spread (P : node -> Prop) (m0 : msg) : list msg -> nat -> list msg -> list msg -> Prop :=
| S_sent : spread P m0 [m0] 0 [] []
| S_lost l1 m l2 n d r : spread P m0 (l1 ++ m :: l2) n d r -> spread P m0 (l1 ++ l2) n d r
| S_received l1 m l2 n d r s c k l : spread P m0 (l1 ++ m :: l2) n d r -> reachable s -> P s ->
    log (recv_item c (RMsg k m) s) = l ++ log s ->
    spread P m0 (l1 ++ passed_on false l ++ l2) (n + length (passed_on false l)) (handed l ++ d) (replies l ++ r).
(** A response [m0]: messages under way, number of forwards, messages handed to response
    callbacks. *)
Inductive return_way (P : node -> Prop) (m0 : msg) : list msg -> nat -> list msg -> Prop :=
| R_sent : return_way P m0 [m0] 0 []
| R_lost l1 m l2 n d : return_way P m0 (l1 ++ m :: l2) n d -> return_way P m0 (l1 ++ l2) n d
| R_received l1 m l2 n d s c k l : return_way P m0 (l1 ++ m :: l2) n d -> reachable s -> P s ->
    log (recv_item c (RMsg k m) s) = l ++ log s ->
    return_way P m0 (l1 ++ passed_on true l ++ l2) (n + length (passed_on true l)) (answered l ++ d).

(** Two messages with the same header, up to the direct source, and the same sender,
    target, content and flags. *)
Definition alike (m m' : msg) : Prop :=
  h_ver (m_head m') = h_ver (m_head m) /\ h_type (m_head m') = h_type (m_head m) /\ h_ret (m_head m') = h_ret (m_head m) /\
  h_seq (m_head m') = h_seq (m_head m) /\
  exists b w w', m_body m = BData b w /\ m_body m' = BData b w' /\
    w_from w' = w_from w /\ w_to w' = w_to w /\ w_content w' = w_content w /\ w_flags w' = w_flags w.
(** A response to a request: same version, type, sequence number, content and flags,
    sender and target exchanged. *)
Definition reply_to (m m' : msg) : Prop :=
  h_ver (m_head m') = h_ver (m_head m) /\ h_type (m_head m') = h_type (m_head m) /\
  (h_seq (m_head m) <> 0 -> h_seq (m_head m') = h_seq (m_head m)) /\
  exists w w', m_body m = BData false w /\ m_body m' = BData true w' /\
    w_from w' = w_to w /\ w_to w' = w_from w /\ w_content w' = w_content w /\ w_flags w' = w_flags w.
