(** How two nodes come to know each other. *)
From Verif Require Import Base Subnet Route Address NodeTypes NodeConn NodeCore NodeMsg Node.
Local Open Scope N_scope.

(** The message [m] introduces the node with the configuration [x] and the own endpoint
    [me] by [r]: its id, process and host, its blocks, and for every access token one key
    made from it. *)
Record introduces (x : cfg) (me : ep) (m : msg) (r : reg) : Prop := {
  in_ver : h_ver (m_head m) = ver;
  in_src : h_src (m_head m) = e_id me;
  in_id : r_id r = e_id me;
  in_pid : r_pid r = x_pid x;
  in_host : r_host r = x_host x;
  in_nets : map (fun c => (c_prefix c, c_mask c)) (r_nets r) = map (fun q => (g_prefix q, g_mask q)) (e_subs me);
  in_keys : Forall2 (fun t k => x_mac x t (y_salt k) = (y_h1 k, y_h2 k)) (x_tokens x) (r_keys r) }.
(** Two nodes configured with the same access tokens. *)
Definition share_tokens (x y : cfg) : Prop := x_tokens x = x_tokens y /\ x_mac x = x_mac y.
