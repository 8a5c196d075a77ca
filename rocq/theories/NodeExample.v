(** A small world used by the examples beside the theorems about nodes: node 65536,
    whose subnet is 65536-131071, and peers that talk to it. *)
From Verif Require Import Base Subnet Route Address NodeTypes NodeConn NodeCore NodeMsg Node.
Local Open Scope N_scope.

(** "ipv4://1.1.1.1:8", "ipv4://1.1.1.1:9", "mem:4096", "shm:16" *)
Definition adr : bytes := [105;112;118;52;58;47;47;49;46;49;46;49;46;49;58;56].
Definition adr2 : bytes := [105;112;118;52;58;47;47;49;46;49;46;49;46;49;58;57].
Definition adr_mem : bytes := [109;101;109;58;47;47;48;120;49;48;48;48].
Definition adr_shm : bytes := [115;104;109;58;47;47;48;120;49;48].
Definition cfg0 : cfg :=
  {| x_nets := [{|c_prefix:=0;c_mask:=16|}]; x_parent := []; x_loop := 128; x_ttl := 16; x_ping := 8; x_retry := 3;
     x_first := 30; x_tol := 2; x_backlog := 128; x_msg := 262144; x_tokens := [];
     x_pid := 7; x_host := [1]; x_mac := fun t n => (N.of_nat (length t) + n, n);
     x_size := fun m => 40; x_cmd := 0; x_reply := fun _ => [] |}.
Definition set_tokens ts x :=
  {| x_nets := x_nets x; x_parent := x_parent x; x_loop := x_loop x; x_ttl := x_ttl x; x_ping := x_ping x; x_retry := x_retry x;
     x_first := x_first x; x_tol := x_tol x; x_backlog := x_backlog x; x_msg := x_msg x; x_tokens := ts;
     x_pid := x_pid x; x_host := x_host x; x_mac := x_mac x; x_size := x_size x; x_cmd := x_cmd x; x_reply := x_reply x |}.
Definition set_pa p x :=
  {| x_nets := x_nets x; x_parent := p; x_loop := x_loop x; x_ttl := x_ttl x; x_ping := x_ping x; x_retry := x_retry x;
     x_first := x_first x; x_tol := x_tol x; x_backlog := x_backlog x; x_msg := x_msg x; x_tokens := x_tokens x;
     x_pid := x_pid x; x_host := x_host x; x_mac := x_mac x; x_size := x_size x; x_cmd := x_cmd x; x_reply := x_reply x |}.
Definition reg0 id nets := {| r_id := id; r_pid := 9; r_host := [2]; r_chans := [adr]; r_keys := []; r_nets := nets |}.
Definition msg0 src b := {| m_head := {| h_ver := 2; h_type := 0; h_ret := 0; h_seq := 5; h_src := src |}; m_body := b |}.
(** The node starts, listens, accepts connection 2 and its peer registers as [id]; the
    node then opens the data connection 3 to it. *)
Definition boot id nets := [EInit 65536 cfg0; EStart 100; EListen adr; EIo (IAccepted adr2);
  EIo (IRecv 2 (RMsg 10 (msg0 id (BReg false (reg0 id nets))))); EIo (IConnected 3 0)].
Definition fuel0 : nat := 1000.
(** What is observed after a history of calls is observed in a reachable state. *)
Lemma witness {A} (f : node -> A) l v : option_map f (run fuel0 l new_node) = Some v -> exists s, reachable s /\ f s = v.
Proof.
  destruct (run fuel0 l new_node) as [s|] eqn:E; [|discriminate]. intro H. injection H as H.
  exists s. split; [now exists fuel0, l|exact H].
Qed.
Lemma witness_run {A} (P : node -> Prop) (f : node -> A) l v : option_map f (run fuel0 l new_node) = Some v ->
  (forall s, f s = v -> P s) -> exists s, run fuel0 l new_node = Some s /\ P s.
Proof.
  destruct (run fuel0 l new_node) as [s|]; [|discriminate]. intros H Q. injection H as H. exists s. split; [reflexivity|now apply Q].
Qed.

Ltac observe f l := let v := eval vm_compute in (option_map f (run fuel0 l new_node)) in
  match v with Some ?x => let s := fresh "s" in let R := fresh "R" in let E := fresh "E" in
    destruct (witness f l x) as (s & R & E); [vm_compute; reflexivity|] end.
(** The same with the access token [1;2;3]; the peer knows it. *)
Definition reg1 id := {| r_id := id; r_pid := 9; r_host := [2]; r_chans := [adr];
  r_keys := [{| y_salt := 5; y_h1 := 8; y_h2 := 5 |}]; r_nets := [] |}.
Definition boot1 id := [EInit 65536 (set_tokens [[1;2;3]] cfg0); EStart 100; EListen adr; EIo (IAccepted adr2);
  EIo (IRecv 2 (RMsg 10 (msg0 id (BReg false (reg1 id))))); EIo (IConnected 3 0)].
Definition data0 from to router := {| w_from := from; w_to := to; w_router := router; w_content := [9; 9]; w_flags := 0 |}.
(** Finds an entry that a step added to the log; both logs are known. *)
Ltac gains E1 E2 := match type of E1 with log ?s = ?a => match type of E2 with _ = ?b =>
  let n := eval vm_compute in (length b - length a)%nat in
  exists (firstn n b); split; [etransitivity; [exact E2|rewrite E1; reflexivity]|]; cbn [firstn];
  repeat first [left; reflexivity|right] end end.
