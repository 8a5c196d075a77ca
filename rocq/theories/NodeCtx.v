(** What no handler changes: configuration, own endpoint, clock, and the flags of the
    calls in progress. *)
From Verif Require Import Base Subnet Route Address NodeTypes NodeConn NodeCore NodeMsg Node
  NodeFrame NodeReset NodeInv NodeKeep.
Local Open Scope N_scope.
Ltac Zify.zify_post_hook ::= idtac.

Definition flags (s : node) := (fl_reset s, fl_gcreset s, fl_self s, fl_gce s, fl_gcc s).
Record kc (s s' : node) : Prop := {
  C_cf : cf s' = cf s; C_self : self s' = self s; C_sec : sec s' = sec s; C_flags : flags s' = flags s }.
Lemma kc_refl s : kc s s. Proof. now constructor. Qed.
Lemma kc_trans s1 s2 s3 : kc s1 s2 -> kc s2 s3 -> kc s1 s3.
Proof. intros [] []. constructor; congruence. Qed.
Lemma kc_intro s s' : cf s' = cf s -> self s' = self s -> sec s' = sec s -> fl_reset s' = fl_reset s ->
  fl_gcreset s' = fl_gcreset s -> fl_self s' = fl_self s -> fl_gce s' = fl_gce s -> fl_gcc s' = fl_gcc s -> kc s s'.
Proof. intros. constructor; trivial. unfold flags. congruence. Qed.
Lemma kc_id s s' : kc s s' -> my_id s' = my_id s. Proof. intros [_ E _ _]. unfold my_id. now rewrite E. Qed.

Create HintDb kc discriminated.
#[export] Hint Constants Opaque : kc.
#[export] Hint Variables Opaque : kc.
Ltac kmvn H v :=
  lazymatch type of H with
  | kc ?s ?s1 => refine (kc_trans s s1 _ H _); clear H; set (v := s1) in *; clearbody v
  end.
Ltac kmv H := let v := fresh "s" in kmvn H v.
Ltac kleaf := solve [eauto 3 with kc].
Ltac kg1 :=
  cbv beta;
  lazymatch goal with
  | |- kc ?s ?s => apply kc_refl
  | |- kc ?s (fst (let x := ?e in @?b x)) => kg_let s e ltac:(fun e' => change (kc s (fst (b e'))))
  | |- kc ?s (let x := ?e in @?b x) => kg_let s e ltac:(fun e' => change (kc s (b e')))
  | |- kc ?s (fst (fst (let x := ?e in @?b x))) => kg_let s e ltac:(fun e' => change (kc s (fst (fst (b e')))))
  | |- kc ?s (fst (fst (fst (let x := ?e in @?b x)))) => kg_let s e ltac:(fun e' => change (kc s (fst (fst (fst (b e'))))))
  | |- kc ?s (fst (fst (fst (match ?x with _ => _ end)))) => kg_case s x
  | |- kc ?s (fst (fst (match ?x with _ => _ end))) => kg_case s x
  | |- kc ?s (fst (match ?x with _ => _ end)) => kg_case s x
  | |- kc ?s (match ?x with _ => _ end) => kg_case s x
  | |- kc ?s (fst (fst (fst (?x, ?y)))) => change (kc s (fst (fst x)))
  | |- kc ?s (fst (fst (?x, ?y))) => change (kc s (fst x))
  | |- kc ?s (fst (?x, ?y)) => change (kc s x)
  | |- kc ?s (fst (fst (fst (?h ?t)))) => kg_at s t
  | |- kc ?s (fst (fst (?h ?t))) => kg_at s t
  | |- kc ?s (fst (?h ?t)) => kg_at s t
  | |- kc ?s (?g ?t) => kg_at s t
  end
with kg_at s t :=
  first [ constr_eq s t; kleaf
        | let H := fresh in assert (H : kc s t) by (repeat kg1); kmv H; kleaf ]
with kg_let s e k :=
  lazymatch type of e with
  | node =>
      first [ constr_eq s e; k s; cbv beta
            | let H := fresh in assert (H : kc s e) by (repeat kg1); k e; cbv beta; kmv H ]
  | _ => let v := fresh in set (v := e); k v; cbv beta; clearbody v
  end
with kg_case s x :=
  lazymatch type of x with
  | (node * _)%type =>
      let H := fresh in assert (H : kc s (fst x)) by (repeat kg1);
      let E := fresh "E" in destruct x as [? ?] eqn:E; cbn [fst] in H; clear E; kmv H
  | (node * _ * _)%type =>
      let H := fresh in assert (H : kc s (fst (fst x))) by (repeat kg1);
      let E := fresh "E" in destruct x as [[? ?] ?] eqn:E; cbn [fst] in H; clear E; kmv H
  | (node * _ * _ * _)%type =>
      let H := fresh in assert (H : kc s (fst (fst (fst x)))) by (repeat kg1);
      let E := fresh "E" in destruct x as [[[? ?] ?] ?] eqn:E; cbn [fst] in H; clear E; kmv H
  | _ => let E := fresh "E" in destruct x eqn:E in |- *
  end.
Ltac kgo := repeat kg1.
Ltac kframe := intros; apply kc_intro; first [reflexivity | fr1].
Lemma kc_set_nst v s : kc s (set_nst v s). Proof. now constructor. Qed.
#[export] Hint Resolve kc_set_nst : kc.
Lemma kc_set_parent v s : kc s (set_parent v s). Proof. now constructor. Qed.
#[export] Hint Resolve kc_set_parent : kc.
Lemma kc_set_routes v s : kc s (set_routes v s). Proof. now constructor. Qed.
#[export] Hint Resolve kc_set_routes : kc.
Lemma kc_set_fl_act v s : kc s (set_fl_act v s). Proof. now constructor. Qed.
#[export] Hint Resolve kc_set_fl_act : kc.
Lemma kc_set_fl_preg v s : kc s (set_fl_preg v s). Proof. now constructor. Qed.
#[export] Hint Resolve kc_set_fl_preg : kc.
Lemma kc_set_fl_shut v s : kc s (set_fl_shut v s). Proof. now constructor. Qed.
#[export] Hint Resolve kc_set_fl_shut : kc.
Lemma kc_set_popr v s : kc s (set_popr v s). Proof. now constructor. Qed.
#[export] Hint Resolve kc_set_popr : kc.
Lemma kc_set_connecting v s : kc s (set_connecting v s). Proof. now constructor. Qed.
#[export] Hint Resolve kc_set_connecting : kc.
Lemma kc_set_pings v s : kc s (set_pings v s). Proof. now constructor. Qed.
#[export] Hint Resolve kc_set_pings : kc.
Lemma kc_set_pend v s : kc s (set_pend v s). Proof. now constructor. Qed.
#[export] Hint Resolve kc_set_pend : kc.
Lemma kc_set_lpend v s : kc s (set_lpend v s). Proof. now constructor. Qed.
#[export] Hint Resolve kc_set_lpend : kc.
Lemma kc_set_gce v s : kc s (set_gce v s). Proof. now constructor. Qed.
#[export] Hint Resolve kc_set_gce : kc.
Lemma kc_set_gcc v s : kc s (set_gcc v s). Proof. now constructor. Qed.
#[export] Hint Resolve kc_set_gcc : kc.
Lemma kc_set_procs v s : kc s (set_procs v s). Proof. now constructor. Qed.
#[export] Hint Resolve kc_set_procs : kc.
Lemma kc_set_seqn v s : kc s (set_seqn v s). Proof. now constructor. Qed.
#[export] Hint Resolve kc_set_seqn : kc.
Lemma kc_set_qdata v s : kc s (set_qdata v s). Proof. now constructor. Qed.
#[export] Hint Resolve kc_set_qdata : kc.
Lemma kc_set_qcmd v s : kc s (set_qcmd v s). Proof. now constructor. Qed.
#[export] Hint Resolve kc_set_qcmd : kc.
Lemma kc_set_orc v s : kc s (set_orc v s). Proof. now constructor. Qed.
#[export] Hint Resolve kc_set_orc : kc.
Lemma kc_set_salts v s : kc s (set_salts v s). Proof. now constructor. Qed.
#[export] Hint Resolve kc_set_salts : kc.
Lemma kc_set_cs v s : kc s (set_cs v s). Proof. now constructor. Qed.
#[export] Hint Resolve kc_set_cs : kc.
Lemma kc_set_es v s : kc s (set_es v s). Proof. now constructor. Qed.
#[export] Hint Resolve kc_set_es : kc.
Lemma kc_set_nextc v s : kc s (set_nextc v s). Proof. now constructor. Qed.
#[export] Hint Resolve kc_set_nextc : kc.
Lemma kc_set_nexte v s : kc s (set_nexte v s). Proof. now constructor. Qed.
#[export] Hint Resolve kc_set_nexte : kc.
Lemma kc_rm_timer c s : kc s (rm_timer c s). Proof. kframe. Qed.
#[export] Hint Resolve kc_rm_timer : kc.
Lemma kc_set_status c v s : kc s (set_status c v s). Proof. kframe. Qed.
#[export] Hint Resolve kc_set_status : kc.
Lemma kc_shutdown z s : kc s (shutdown z s). Proof. kframe. Qed.
#[export] Hint Resolve kc_shutdown : kc.
Lemma kc_fatal_shutdown z s : kc s (fatal_shutdown z s). Proof. kframe. Qed.
#[export] Hint Resolve kc_fatal_shutdown : kc.
Lemma kc_on_actived  s : kc s (on_actived  s). Proof. kframe. Qed.
#[export] Hint Resolve kc_on_actived : kc.
Lemma kc_on_disconnect c s : kc s (on_disconnect c s). Proof. kframe. Qed.
#[export] Hint Resolve kc_on_disconnect : kc.
Lemma kc_rm_proc a s : kc s (rm_proc a s). Proof. kframe. Qed.
#[export] Hint Resolve kc_rm_proc : kc.
Lemma kc_add_proc c s : kc s (add_proc c s). Proof. kframe. Qed.
#[export] Hint Resolve kc_add_proc : kc.
Lemma kc_add_timer c s : kc s (add_timer c s). Proof. kframe. Qed.
#[export] Hint Resolve kc_add_timer : kc.
Lemma kc_gc_conn c s : kc s (gc_conn c s). Proof. kframe. Qed.
#[export] Hint Resolve kc_gc_conn : kc.
Lemma kc_gc_ep e s : kc s (gc_ep e s). Proof. kframe. Qed.
#[export] Hint Resolve kc_gc_ep : kc.
Lemma kc_disconnect c s : kc s (disconnect c s). Proof. kframe. Qed.
#[export] Hint Resolve kc_disconnect : kc.
Lemma kc_conn_close c s : kc s (conn_close c s). Proof. kframe. Qed.
#[export] Hint Resolve kc_conn_close : kc.
Lemma kc_clear_ping e s : kc s (clear_ping e s). Proof. kframe. Qed.
#[export] Hint Resolve kc_clear_ping : kc.
Lemma kc_insert_ping e s : kc s (insert_ping e s). Proof. kframe. Qed.
#[export] Hint Resolve kc_insert_ping : kc.
Lemma kc_add_ping e s : kc s (add_ping e s). Proof. kframe. Qed.
#[export] Hint Resolve kc_add_ping : kc.
Lemma kc_ep_reset b g e s : kc s (ep_reset b g e s). Proof. kframe. Qed.
#[export] Hint Resolve kc_ep_reset : kc.
Lemma kc_conn_reset c s : kc s (conn_reset c s). Proof. kframe. Qed.
#[export] Hint Resolve kc_conn_reset : kc.
Lemma kc_ep_drop e s : kc s (ep_drop e s). Proof. kframe. Qed.
#[export] Hint Resolve kc_ep_drop : kc.
Lemma kc_conn_drop c s : kc s (conn_drop c s). Proof. kframe. Qed.
#[export] Hint Resolve kc_conn_drop : kc.
Lemma kc_add_listen e a s : kc s (add_listen e a s). Proof. kframe. Qed.
#[export] Hint Resolve kc_add_listen : kc.
Lemma kc_written c z n s : kc s (written c z n s). Proof. kframe. Qed.
#[export] Hint Resolve kc_written : kc.
Lemma kc_conn_fault c s : kc s (conn_fault c s). Proof. kframe. Qed.
#[export] Hint Resolve kc_conn_fault : kc.
Lemma kc_on_c c f s : kc s (on_c c f s). Proof. kframe. Qed.
#[export] Hint Resolve kc_on_c : kc.
Lemma kc_on_e e f s : kc s (on_e e f s). Proof. kframe. Qed.
#[export] Hint Resolve kc_on_e : kc.
Lemma kc_emit t s : kc s (emit t s). Proof. kframe. Qed.
#[export] Hint Resolve kc_emit : kc.
Lemma kc_conn_create  s : kc s (fst (conn_create  s)). Proof. kframe. Qed.
#[export] Hint Resolve kc_conn_create : kc.
Lemma kc_ep_create i u p h s : kc s (fst (ep_create i u p h s)). Proof. kframe. Qed.
#[export] Hint Resolve kc_ep_create : kc.
Lemma kc_add_connection e c b s : kc s (fst (add_connection e c b s)). Proof. kframe. Qed.
#[export] Hint Resolve kc_add_connection : kc.
Lemma kc_created e s : kc s (fst (created e s)). Proof. kframe. Qed.
#[export] Hint Resolve kc_created : kc.
Lemma kc_alloc_seq  s : kc s (fst (alloc_seq  s)). Proof. kframe. Qed.
#[export] Hint Resolve kc_alloc_seq : kc.
Lemma kc_take_orc  s : kc s (fst (take_orc  s)). Proof. kframe. Qed.
#[export] Hint Resolve kc_take_orc : kc.
Lemma kc_take_salt  s : kc s (fst (take_salt  s)). Proof. kframe. Qed.
#[export] Hint Resolve kc_take_salt : kc.
Lemma kc_push c m s : kc s (fst (push c m s)). Proof. kframe. Qed.
#[export] Hint Resolve kc_push : kc.
Lemma kc_send_on c m s : kc s (fst (send_on c m s)). Proof. kframe. Qed.
#[export] Hint Resolve kc_send_on : kc.
Lemma kc_add_endpoint e s : kc s (fst (add_endpoint e s)). Proof. kframe. Qed.
#[export] Hint Resolve kc_add_endpoint : kc.
Lemma kc_remove_endpoint i x s : kc s (fst (remove_endpoint i x s)). Proof. kframe. Qed.
#[export] Hint Resolve kc_remove_endpoint : kc.
Lemma kc_ep_fault e s : kc s (fst (ep_fault e s)). Proof. kframe. Qed.
#[export] Hint Resolve kc_ep_fault : kc.

Lemma kc_gen_keys ts : forall s, kc s (fst (gen_keys ts s)).
Proof. induction ts as [|t r IH]; intro s; cbn [gen_keys]; kgo. Qed.
#[export] Hint Resolve kc_gen_keys : kc.
Lemma kc_send_reg rsp c z q s : kc s (fst (send_reg rsp c z q s)). Proof. unfold send_reg. kgo. Qed.
#[export] Hint Resolve kc_send_reg : kc.
Lemma kc_send_ping c q s : kc s (fst (send_ping c q s)). Proof. unfold send_ping. kgo. Qed.
#[export] Hint Resolve kc_send_ping : kc.
Lemma kc_on_new_connection c s : kc s (on_new_connection c s). Proof. unfold on_new_connection. kgo. Qed.
#[export] Hint Resolve kc_on_new_connection : kc.
Lemma kc_number m s : kc s (fst (number m s)). Proof. unfold number. kgo. Qed.
#[export] Hint Resolve kc_number : kc.
Lemma kc_post d i m s : kc s (fst (post d i m s)). Proof. unfold post. kgo. Qed.
#[export] Hint Resolve kc_post : kc.
Lemma kc_send_cmd_rsp oc d t z q f s : kc s (fst (send_cmd_rsp oc d t z q f s)). Proof. unfold send_cmd_rsp. kgo. Qed.
#[export] Hint Resolve kc_send_cmd_rsp : kc.
Lemma kc_cmd_req oc h q s : kc s (fst (cmd_req oc h q s)). Proof. unfold cmd_req. kgo. Qed.
#[export] Hint Resolve kc_cmd_req : kc.
Lemma kc_cmd_rsp oc h q s : kc s (fst (cmd_rsp oc h q s)). Proof. unfold cmd_rsp. kgo. Qed.
#[export] Hint Resolve kc_cmd_rsp : kc.
Lemma kc_self_data m s : kc s (self_data m s). Proof. unfold self_data. kgo. Qed.
#[export] Hint Resolve kc_self_data : kc.
Lemma kc_self_cmd m s : kc s (self_cmd m s). Proof. unfold self_cmd. kgo. Qed.
#[export] Hint Resolve kc_self_cmd : kc.
Lemma kc_data_loop n : forall s, kc s (fst (fst (self_data_loop n s))).
Proof. induction n as [|n IH]; intro s; cbn [self_data_loop]; kgo. Qed.
Lemma kc_cmd_loop n : forall s, kc s (fst (self_cmd_loop n s)).
Proof. induction n as [|n IH]; intro s; cbn [self_cmd_loop]; kgo. Qed.
#[export] Hint Resolve kc_data_loop kc_cmd_loop : kc.
Lemma kc_dispatch_self s : kc s (fst (dispatch_self s)).
Proof.
  unfold dispatch_self. destruct (fl_self s) eqn:F; [apply kc_refl|]. cbv zeta.
  set (n := if x_loop _ =? 0 then _ else _). clearbody n.
  pose proof (kc_data_loop n (set_fl_self true s)) as K1.
  destruct (self_data_loop n (set_fl_self true s)) as [[s1 r] k]. cbn [fst] in K1.
  pose proof (kc_cmd_loop r s1) as K2. destruct (self_cmd_loop r s1) as [s2 k2]. cbn [fst] in *.
  destruct (kc_trans _ _ _ K1 K2) as [A B C D]. cbn in A, B, C. unfold flags in D. cbn in D.
  injection D as D1 D2 D3 D4 D5. apply kc_intro; cbn; congruence.
Qed.
#[export] Hint Resolve kc_dispatch_self : kc.
Lemma kc_send_to d i m s : kc s (fst (send_to d i m s)). Proof. unfold send_to. kgo. Qed.
#[export] Hint Resolve kc_send_to : kc.
Lemma kc_conn_connect c a s : kc s (fst (conn_connect c a s)). Proof. unfold conn_connect. kgo. Qed.
#[export] Hint Resolve kc_conn_connect : kc.
Lemma kc_connect a s : kc s (fst (connect a s)). Proof. unfold connect. kgo. Qed.
#[export] Hint Resolve kc_connect : kc.
Lemma kc_connect_ep a e s : kc s (fst (connect_ep a e s)). Proof. unfold connect_ep. kgo. Qed.
#[export] Hint Resolve kc_connect_ep : kc.
Lemma kc_listen_cb c z s : kc s (listen_cb c z s). Proof. unfold listen_cb. kgo. Qed.
#[export] Hint Resolve kc_listen_cb : kc.
Lemma kc_conn_listen c a s : kc s (fst (conn_listen c a s)). Proof. unfold conn_listen. kgo. Qed.
#[export] Hint Resolve kc_conn_listen : kc.
Lemma kc_listen a s : kc s (fst (listen a s)). Proof. unfold listen. kgo. Qed.
#[export] Hint Resolve kc_listen : kc.
Lemma kc_connected_cb c z s : kc s (connected_cb c z s). Proof. unfold connected_cb. kgo. Qed.
#[export] Hint Resolve kc_connected_cb : kc.
Lemma kc_listened c z s : kc s (listened c z s). Proof. unfold listened. kgo. Qed.
#[export] Hint Resolve kc_listened : kc.
Lemma kc_accept_failed s : kc s (accept_failed s). Proof. unfold accept_failed. kgo. Qed.
#[export] Hint Resolve kc_accept_failed : kc.
Lemma kc_accepted a s : kc s (accepted a s). Proof. unfold accepted. kgo. Qed.
#[export] Hint Resolve kc_accepted : kc.
Lemma kc_peer_closed c s : kc s (peer_closed c s). Proof. unfold peer_closed. kgo. Qed.
#[export] Hint Resolve kc_peer_closed : kc.
Lemma kc_node_disconnect i s : kc s (fst (node_disconnect i s)). Proof. unfold node_disconnect. kgo. Qed.
#[export] Hint Resolve kc_node_disconnect : kc.
Lemma kc_transfer_rsp h w z s : kc s (fst (transfer_rsp h w z s)). Proof. unfold transfer_rsp. kgo. Qed.
#[export] Hint Resolve kc_transfer_rsp : kc.
Lemma kc_forward r h w f t s : kc s (fst (fst (fst (forward r h w f t s)))). Proof. unfold forward. kgo. Qed.
#[export] Hint Resolve kc_forward : kc.
Lemma kc_connect_sync x y s : kc s (fst (connect_sync x y s)). Proof. unfold connect_sync. kgo. Qed.
#[export] Hint Resolve kc_connect_sync : kc.
Lemma kc_data_req c h w s : kc s (fst (data_req c h w s)). Proof. unfold data_req. kgo. Qed.
#[export] Hint Resolve kc_data_req : kc.
Lemma kc_data_rsp c h w s : kc s (fst (data_rsp c h w s)). Proof. unfold data_rsp. kgo. Qed.
#[export] Hint Resolve kc_data_rsp : kc.
Lemma kc_sync_msg r c h s : kc s (fst (sync_msg r c h s)). Proof. unfold sync_msg. kgo. Qed.
#[export] Hint Resolve kc_sync_msg : kc.
Lemma kc_reg_deny c z q s : kc s (fst (reg_deny c z q s)). Proof. unfold reg_deny. kgo. Qed.
#[export] Hint Resolve kc_reg_deny : kc.
Lemma kc_open_channels e can l : forall has s, kc s (fst (open_channels e can l has s)).
Proof. induction l as [|x r IH]; intros has s; cbn [open_channels]; kgo. Qed.
#[export] Hint Resolve kc_open_channels : kc.
Lemma kc_welcome c e r s : kc s (welcome c e r s). Proof. unfold welcome. kgo. Qed.
#[export] Hint Resolve kc_welcome : kc.
Lemma kc_reg_body c r s : kc s (fst (reg_body c r s)). Proof. unfold reg_body. kgo. Qed.
#[export] Hint Resolve kc_reg_body : kc.
Lemma kc_reg_req c h r s : kc s (fst (reg_req c h r s)). Proof. unfold reg_req. kgo. Qed.
#[export] Hint Resolve kc_reg_req : kc.
Lemma kc_parent_reg_done  s : kc s (parent_reg_done  s). Proof. unfold parent_reg_done. kgo. Qed.
#[export] Hint Resolve kc_parent_reg_done : kc.
Lemma kc_reg_rsp c h r s : kc s (fst (reg_rsp c h r s)). Proof. unfold reg_rsp. kgo. Qed.
#[export] Hint Resolve kc_reg_rsp : kc.
Lemma kc_conn_syn c h a s : kc s (fst (conn_syn c h a s)). Proof. unfold conn_syn. kgo. Qed.
#[export] Hint Resolve kc_conn_syn : kc.
Lemma kc_ping_msg c h t s : kc s (fst (ping_msg c h t s)). Proof. unfold ping_msg. kgo. Qed.
#[export] Hint Resolve kc_ping_msg : kc.
Lemma kc_pong_msg c h t s : kc s (fst (pong_msg c h t s)). Proof. unfold pong_msg. kgo. Qed.
#[export] Hint Resolve kc_pong_msg : kc.
Lemma kc_dispatch_msg c m s : kc s (fst (dispatch_msg c m s)). Proof. unfold dispatch_msg. kgo. Qed.
#[export] Hint Resolve kc_dispatch_msg : kc.
Lemma kc_fault_of c s : kc s (fault_of c s). Proof. unfold fault_of. kgo. Qed.
#[export] Hint Resolve kc_fault_of : kc.
Lemma kc_on_recv c m s : kc s (on_recv c m s). Proof. unfold on_recv. kgo. Qed.
#[export] Hint Resolve kc_on_recv : kc.
Lemma kc_recv_item c i s : kc s (recv_item c i s). Proof. unfold recv_item. kgo. Qed.
#[export] Hint Resolve kc_recv_item : kc.
Lemma kc_proc_items n c : forall l s, kc s (proc_items n c l s).
Proof. induction n as [|n IH]; intros l s; cbn [proc_items]; kgo. Qed.
#[export] Hint Resolve kc_proc_items : kc.
Lemma kc_fold {A} (f : node -> A -> node) : (forall s x, kc s (f s x)) -> forall l s, kc s (fold_left f l s).
Proof. intros F l. induction l as [|x r IH]; intro s; cbn [fold_left]; [apply kc_refl|]. eapply kc_trans; [apply F|apply IH]. Qed.
Lemma kc_proc_one s p : kc s (proc_one s p).
Proof. destruct p as [c l]. unfold proc_one. kgo. Qed.
Lemma kc_sweep n now : forall s, kc s (sweep n now s).
Proof. induction n as [|n IH]; intro s; cbn [sweep]; kgo. Qed.
#[export] Hint Resolve kc_sweep : kc.
Lemma kc_fault_drop h e s : kc s (fst (fault_drop h e s)). Proof. unfold fault_drop. kgo. Qed.
#[export] Hint Resolve kc_fault_drop : kc.
Lemma kc_ping_endpoint h e s : kc s (fst (ping_endpoint h e s)). Proof. unfold ping_endpoint. kgo. Qed.
#[export] Hint Resolve kc_ping_endpoint : kc.
Lemma kc_idle_out n e s : kc s (fst (idle_out n e s)). Proof. unfold idle_out. kgo. Qed.
#[export] Hint Resolve kc_idle_out : kc.
Lemma kc_parent_op n s : kc s (parent_op n s). Proof. unfold parent_op. kgo. Qed.
#[export] Hint Resolve kc_parent_op : kc.
Lemma kc_release nx s : kc s (release nx s). Proof. unfold release. kgo. Qed.
#[export] Hint Resolve kc_release : kc.
Lemma kc_ping_loop now n : forall nx s s', ping_loop n now nx s = Some s' -> kc s s'.
Proof.
  induction n as [|n IH]; intros nx s s' X; cbn [ping_loop] in X; [discriminate|].
  destruct (pings s) as [|[t e0] l]; [injection X as <-; apply kc_release|].
  destruct (now <? t); [injection X as <-; apply kc_release|]. cbv zeta in X.
  set (e := match nx with Some e => e | None => e0 end) in X.
  pose proof (kc_idle_out now e s) as K. destruct (idle_out now e s) as [s1 out]. cbn [fst] in K. kmvn K s2.
  destruct out.
  - apply IH in X. refine (kc_trans _ _ _ _ X). kgo.
  - set (s3 := if match parent s2 with Some p => e_ref p =? e | None => false end then s2 else fst (ping_endpoint true e s2)) in X.
    assert (K : kc s2 s3) by (unfold s3; destruct (match parent s2 with Some p => _ | None => _ end); kgo).
    clearbody s3. kmvn K s5.
    set (s4 := add_ping (d_ep (es s5 e)) s5) in X.
    assert (K : kc s5 s4) by (unfold s4; kgo). clearbody s4. kmvn K s6.
    destruct (pings s6) as [|[t2 e2] r]; [injection X as <-; kgo|].
    destruct (now <? t2); [injection X as <-; kgo|].
    destruct (negb (t2 =? t)); [|destruct (e2 =? e)]; apply IH in X; refine (kc_trans _ _ _ _ X); kgo.
Qed.
(** The collector clears its own flags, which are not set outside of it. *)
Lemma kc_gc_one s x : kc s (gc_one s x).
Proof. unfold gc_one. kgo. Qed.
Lemma kc_drop_ep s e : kc s (drop_ep s e). Proof. apply kc_ep_drop. Qed.
Lemma kc_collect s : fl_gce s = false -> fl_gcc s = false -> kc s (collect s).
Proof.
  intros F1 F2. unfold collect. cbv zeta.
  set (s1 := match gce s with [] => s | _ => _ end).
  assert (K : kc s s1).
  { subst s1. destruct (gce s) as [|x l]; [apply kc_refl|]. set (l1 := x :: l). clearbody l1.
    pose proof (kc_fold gc_one kc_gc_one l1 (set_fl_gce true (set_gce [] s))) as K1.
    set (s2 := fold_left gc_one l1 _) in *. clearbody s2.
    pose proof (kc_fold drop_ep kc_drop_ep (map e_ref l1) (set_gce [] s2)) as K2.
    set (s3 := fold_left drop_ep _ _) in *. clearbody s3.
    destruct (kc_trans _ _ _ K1 (kc_trans _ _ _ (kc_set_gce [] s2) K2)) as [A B C D]. cbn in A, B, C. unfold flags in D. cbn in D.
    injection D as D1 D2 D3 D4 D5. apply kc_intro; cbn; congruence. }
  clearbody s1. assert (F3 : fl_gcc s1 = false) by (destruct K as [_ _ _ D]; unfold flags in D; congruence).
  refine (kc_trans _ _ _ K _). destruct (gcc s1) as [|c l]; [apply kc_refl|]. set (l1 := c :: l). clearbody l1.
  assert (K1 := kc_fold (fun s c => conn_drop c s) (fun s c => kc_conn_drop c s) l1 (set_gcc [] (set_fl_gcc true s1))).
  set (s2 := fold_left _ l1 _) in *. clearbody s2.
  destruct K1 as [A B C D]. cbn in A, B, C. unfold flags in D. cbn in D.
  injection D as D1 D2 D3 D4 D5. apply kc_intro; cbn; congruence.
Qed.
Lemma kc_send_data a b c d e s : kc s (fst (send_data a b c d e s)). Proof. unfold send_data. kgo. Qed.
#[export] Hint Resolve kc_send_data : kc.
Lemma kc_send_custom a b c s : kc s (fst (send_custom a b c s)). Proof. unfold send_custom. kgo. Qed.
#[export] Hint Resolve kc_send_custom : kc.
Lemma kc_io_step i s : kc s (io_step i s).
Proof. unfold io_step. kgo. Qed.
