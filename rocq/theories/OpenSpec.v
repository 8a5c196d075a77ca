(** Where the addresses of connections come from. *)
From Verif Require Import Base Subnet Route AddressSpec Address NodeTypes NodeConn NodeCore NodeMsg Node PropNodeConn.
Local Open Scope N_scope.

(** "mem:", "shm:", "unix:". *)
Definition in_process (a : bytes) : Prop := begins [109; 101; 109; 58] a.
Definition on_host (a : bytes) : Prop := in_process a \/ begins [115; 104; 109; 58] a \/ begins [117; 110; 105; 120; 58] a.
Definition stream (a : bytes) : Prop := ~ in_process a /\ ~ begins [115; 104; 109; 58] a.
(** An address a message asks the node with configuration [x] to use: one a registering
    peer announces, if it is not bound to another host or process; or one a peer
    recommends, if it is not a memory channel. *)
Definition named (x : cfg) (b : body) (a : bytes) : Prop :=
  match b with
  | BReg false r => In a (r_chans r) /\ (on_host a -> r_host r = x_host x) /\ (in_process a -> r_pid r = x_pid x)
  | BConn a' => a = a' /\ stream a
  | _ => False
  end.
Definition item_names (x : cfg) (i : item) (a : bytes) : Prop :=
  match i with RMsg _ m => named x (m_body m) a | _ => False end.
Definition io_names (x : cfg) (i : io) (a : bytes) : Prop :=
  match i with IAccepted a' => a = a' | IRecv _ i => item_names x i a | _ => False end.
(** The addresses a call names, directly, by the configuration or by what it receives. *)
Definition names (x : cfg) (ev : event) (a : bytes) : Prop :=
  match ev with
  | EStart _ => a = x_parent x
  | EListen a' | EConnect a' | EConnectEp a' _ => a = a'
  | EProc _ feed => a = x_parent x \/ exists p i, In p feed /\ In i (snd p) /\ item_names x i a
  | EPoll l => exists i, In i l /\ io_names x i a
  | EIo i => io_names x i a
  | _ => False
  end.
(** The connections that exist in [s'] but not in [s]. *)
Definition fresh (s s' : node) (c : N) : Prop := nextc s <= c /\ c < nextc s'.

(** ** Recommendations *)
(** The id a received message counts as coming from: that of the peer the connection is
    bound to. *)
Definition sender (s : node) (c : N) (m : msg) : N :=
  match k_bind (cs s c) with
  | Some e => if e_id (d_ep (es s e)) =? 0 then h_src (m_head m) else e_id (d_ep (es s e))
  | None => h_src (m_head m)
  end.
(** Connection [c'] gets [a] recommended because data from [from], which came by [c], is
    for [to]. *)
Record advice (s : node) (c c' : N) (from to : N) (a : bytes) : Prop := {
  V_ready : k_st (cs s c) = Connected;
  V_from : is_child s from = true;
  V_to : is_child s to = true;
  V_hop : exists e, next_hop s to = Some e /\ is_child s (e_id e) = true /\ In a (d_listen (es s (e_ref e))) /\
    (begins [117; 110; 105; 120; 58] a -> exists f, get_endpoint s from = Some f /\ d_host (es s (e_ref f)) = d_host (es s (e_ref e)));
  V_stream : stream a;
  V_some : a <> [];
  V_dest : exists g, next_hop s from = Some g /\ k_bind (cs s c') = Some (e_ref g) /\ k_st (cs s c') = Connected }.
Definition advises (t : tr) (c : N) (a : bytes) : Prop := exists m n z, t = TSend c m n z /\ m_body m = BConn a.
Definition added (s s' : node) (t : tr) : Prop := exists l, log s' = l ++ log s /\ In t l.
(** A call that brings a request to handle data. *)
Definition asking (i : item) : Prop := match i with RMsg _ m => exists w, m_body m = BData false w | _ => False end.
Definition brings (ev : event) : Prop :=
  match ev with
  | EProc _ feed => exists p i, In p feed /\ In i (snd p) /\ asking i
  | EPoll l => exists c i, In (IRecv c i) l /\ asking i
  | EIo (IRecv _ i) => asking i
  | _ => False
  end.
(** Data is passed on with success. *)
Definition passes (t : tr) : Prop := exists c m n z w, t = TSend c m n z /\ m_body m = BData false w /\ (0 <= z)%Z.
(** An address that peer [f] can use to reach [e]. *)
Definition usable_by (s : node) (f e : N) (a : bytes) : Prop :=
  stream a /\ (begins [117; 110; 105; 120; 58] a -> d_host (es s f) = d_host (es s e)).
