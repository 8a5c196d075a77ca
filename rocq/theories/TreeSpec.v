(** A tree of nodes, what it means that a node is connected up in its place, and the way
    of a message from node to node (C28). *)
From Verif Require Import Base Subnet Route Address NodeTypes NodeConn NodeCore NodeMsg Node NodeReach NodeRoute PropNodeMsg NetSpec.
Local Open Scope N_scope.

(** ** The tree *)
(** Node ids, the parent of each, and the ids each is responsible for. *)
Record tree := { member : N -> Prop; up : N -> option N; area : N -> N -> Prop }.
(** What registration asks for: a node is responsible for itself, its parent for all it
    is responsible for, brothers for different ids, and no node for its parent. *)
Record nested (t : tree) : Prop := {
  T_zero : ~ member t 0;
  T_up : forall i p, member t i -> up t i = Some p -> member t p;
  T_root : exists r, forall i, member t i -> up t i = None -> i = r;
  T_depth : exists d : N -> nat, forall i p, member t i -> up t i = Some p -> (d p < d i)%nat;
  T_self : forall i, member t i -> area t i i;
  T_nest : forall i p x, member t i -> up t i = Some p -> area t i x -> area t p x;
  T_apart : forall i j p x, member t i -> member t j -> up t i = Some p -> up t j = Some p -> area t i x -> area t j x -> i = j;
  T_above : forall i p, member t i -> up t i = Some p -> ~ area t i p }.
(** The way from [i] to [a], with its length. *)
Inductive route (t : tree) (a : N) : N -> nat -> Prop :=
| Here : route t a a 0
| Down i j n : i <> a -> member t j -> up t j = Some i -> area t j a -> route t a j n -> route t a i (S n)
| Upwards i p n : ~ area t i a -> up t i = Some p -> route t a p n -> route t a i (S n).

(** ** A node in its place *)
(** The endpoint [x] can be sent to: its control connection is up, and all its
    connections that are up can be written to. *)
Definition linked (s : node) (x : ep) : Prop :=
  e_ref x <> my_ref s /\
  (exists c, d_ctrl (es s (e_ref x)) = Some c /\ k_st (cs s c) = Connected) /\
  forall c, k_bind (cs s c) = Some (e_ref x) -> k_st (cs s c) = Connected -> k_kind (cs s c) = KSock \/ k_kind (cs s c) = KSend.
(** Messages with at most [M] bytes and at most [ttl] names are within the size limit. *)
Definition roomy (M T : N) (s : node) : Prop := forall m w, m_body m = BData false w ->
  N.of_nat (length (w_content w)) <= M -> N.of_nat (length (w_router w)) <= T -> x_size (cf s) m <= x_msg (cf s) + 1024.
(** Node [i] is up, the transports take what they are given, its parent is the one of
    the tree, and exactly its children in the tree are registered. *)
Record in_place (t : tree) (M T i : N) (s : node) : Prop := {
  P_reach : reachable s;
  P_settled : settled s;
  P_id : my_id s = i;
  P_member : member t i;
  P_self : self s <> None;
  P_live : nst s <> NCreated;
  P_free : orc s = [];
  P_ttl : T <= x_ttl (cf s);
  P_size : roomy M T s;
  P_msg : M <= x_msg (cf s);
  P_own : forall x, x <> 0 -> (own s x <-> area t i x);
  P_parent : match up t i with
             | Some p => exists x, parent s = Some x /\ e_id x = p /\ linked s x
             | None => parent s = None end;
  P_child : forall r x, In (r, x) (routes s) -> member t (e_id x) /\ up t (e_id x) = Some i /\ linked s x /\
              forall y, y <> 0 -> (covers x y <-> area t (e_id x) y);
  P_children : forall j, member t j -> up t j = Some i -> exists r x, In (r, x) (routes s) /\ e_id x = j }.
(** The connection [c] brings messages from node [f]: it is a connection of that peer, or
    the node's own end of a shared memory or memory channel. *)
Definition brings (s : node) (c f : N) : Prop :=
  k_st (cs s c) = Connected /\ exists e, k_bind (cs s c) = Some e /\ (e_id (d_ep (es s e)) = f \/ e_id (d_ep (es s e)) = my_id s).

(** ** The way of a message *)
(** Whatever state node [i] is in, as long as it is in its place, and whatever connection
    brings the message [m] from [f]: it sends [m'] to [j], and nothing else, and hands
    nothing to its receive callback. *)
Definition moves (P : N -> node -> Prop) (i f : N) (m : msg) (j : N) (m' : msg) : Prop :=
  forall s c k l, P i s -> brings s c f -> log (recv_item c (RMsg k m) s) = l ++ log s ->
  passed_on false l = [m'] /\ handed l = [] /\
  exists c' e, (exists n z, In (TSend c' m' n z) l) /\ k_bind (cs s c') = Some e /\ e_id (d_ep (es s e)) = j.
(** It hands the message to its receive callback, once, and sends it nowhere. *)
Definition ends (P : N -> node -> Prop) (i f : N) (m : msg) : Prop :=
  forall s c k l, P i s -> brings s c f -> log (recv_item c (RMsg k m) s) = l ++ log s ->
  passed_on false l = [] /\ exists m', handed l = [m'] /\ alike m m'.
Inductive delivered (P : N -> node -> Prop) (a : N) : nat -> N -> N -> msg -> Prop :=
| Ends f m : ends P a f m -> delivered P a 0 a f m
| Moves n i f m j m' : moves P i f m j m' -> i <> a -> alike m m' -> delivered P a n j i m' -> delivered P a (S n) i f m.
