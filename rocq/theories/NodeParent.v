(** The timer of the parent: when it is set, and to what. *)
From Verif Require Import Base Subnet Route Address NodeTypes NodeConn NodeCore NodeMsg Node
  NodeFrame NodeReset NodeInv NodeKeep.
Local Open Scope N_scope.
Ltac Zify.zify_post_hook ::= idtac.

(** What any handler does to the timer: nothing, or the parent was lost and is tried again
    after the retry interval, or it registered and is pinged earlier than planned. *)
Record kt (s s' : node) : Prop := {
  T_cf : cf s' = cf s; T_sec : sec s' = sec s;
  T_popr : popr s' = popr s \/ popr s' = sec s + x_retry (cf s) \/
    (popr s' = sec s + x_ping (cf s) /\ (popr s' < popr s \/ popr s' < sec s + x_retry (cf s))) }.
Lemma kt_refl s : kt s s. Proof. constructor; auto. Qed.
Lemma kt_trans s1 s2 s3 : kt s1 s2 -> kt s2 s3 -> kt s1 s3.
Proof.
  intros [A1 A2 A3] [B1 B2 B3]. constructor; [congruence..|]. rewrite A1, A2 in B3.
  destruct A3 as [A|[A|[A A']]], B3 as [B|[B|[B B']]]; lia.
Qed.
Lemma kt_intro s s' : cf s' = cf s -> sec s' = sec s -> popr s' = popr s -> kt s s'.
Proof. intros. constructor; auto. Qed.

Create HintDb kt discriminated.
#[export] Hint Constants Opaque : kt.
#[export] Hint Variables Opaque : kt.
Ltac qmvn H v :=
  lazymatch type of H with
  | kt ?s ?s1 => refine (kt_trans s s1 _ H _); clear H; set (v := s1) in *; clearbody v
  end.
Ltac qmv H := let v := fresh "s" in qmvn H v.
Ltac qleaf := solve [eauto 3 with kt].
Ltac qg1 :=
  cbv beta;
  lazymatch goal with
  | |- kt ?s ?s => apply kt_refl
  | |- kt ?s (fst (let x := ?e in @?b x)) => qg_let s e ltac:(fun e' => change (kt s (fst (b e'))))
  | |- kt ?s (let x := ?e in @?b x) => qg_let s e ltac:(fun e' => change (kt s (b e')))
  | |- kt ?s (fst (fst (let x := ?e in @?b x))) => qg_let s e ltac:(fun e' => change (kt s (fst (fst (b e')))))
  | |- kt ?s (fst (fst (fst (let x := ?e in @?b x)))) => qg_let s e ltac:(fun e' => change (kt s (fst (fst (fst (b e'))))))
  | |- kt ?s (fst (fst (fst (match ?x with _ => _ end)))) => qg_case s x
  | |- kt ?s (fst (fst (match ?x with _ => _ end))) => qg_case s x
  | |- kt ?s (fst (match ?x with _ => _ end)) => qg_case s x
  | |- kt ?s (match ?x with _ => _ end) => qg_case s x
  | |- kt ?s (fst (fst (fst (?x, ?y)))) => change (kt s (fst (fst x)))
  | |- kt ?s (fst (fst (?x, ?y))) => change (kt s (fst x))
  | |- kt ?s (fst (?x, ?y)) => change (kt s x)
  | |- kt ?s (fst (fst (fst (?h ?t)))) => qg_at s t
  | |- kt ?s (fst (fst (?h ?t))) => qg_at s t
  | |- kt ?s (fst (?h ?t)) => qg_at s t
  | |- kt ?s (?g ?t) => qg_at s t
  end
with qg_at s t :=
  first [ constr_eq s t; qleaf
        | let H := fresh in assert (H : kt s t) by (repeat qg1); qmv H; qleaf ]
with qg_let s e k :=
  lazymatch type of e with
  | node =>
      first [ constr_eq s e; k s; cbv beta
            | let H := fresh in assert (H : kt s e) by (repeat qg1); k e; cbv beta; qmv H ]
  | _ => let v := fresh in set (v := e); k v; cbv beta; clearbody v
  end
with qg_case s x :=
  lazymatch type of x with
  | (node * _)%type =>
      let H := fresh in assert (H : kt s (fst x)) by (repeat qg1);
      let E := fresh "E" in destruct x as [? ?] eqn:E; cbn [fst] in H; clear E; qmv H
  | (node * _ * _)%type =>
      let H := fresh in assert (H : kt s (fst (fst x))) by (repeat qg1);
      let E := fresh "E" in destruct x as [[? ?] ?] eqn:E; cbn [fst] in H; clear E; qmv H
  | (node * _ * _ * _)%type =>
      let H := fresh in assert (H : kt s (fst (fst (fst x)))) by (repeat qg1);
      let E := fresh "E" in destruct x as [[[? ?] ?] ?] eqn:E; cbn [fst] in H; clear E; qmv H
  | _ => let E := fresh "E" in destruct x eqn:E in |- *
  end.
Ltac qgo := repeat qg1.
Ltac qframe := intros; apply kt_intro; first [reflexivity | fr1].
Lemma kt_set_nst v s : kt s (set_nst v s). Proof. now apply kt_intro. Qed.
#[export] Hint Resolve kt_set_nst : kt.
Lemma kt_set_parent v s : kt s (set_parent v s). Proof. now apply kt_intro. Qed.
#[export] Hint Resolve kt_set_parent : kt.
Lemma kt_set_routes v s : kt s (set_routes v s). Proof. now apply kt_intro. Qed.
#[export] Hint Resolve kt_set_routes : kt.
Lemma kt_set_fl_act v s : kt s (set_fl_act v s). Proof. now apply kt_intro. Qed.
#[export] Hint Resolve kt_set_fl_act : kt.
Lemma kt_set_fl_preg v s : kt s (set_fl_preg v s). Proof. now apply kt_intro. Qed.
#[export] Hint Resolve kt_set_fl_preg : kt.
Lemma kt_set_fl_shut v s : kt s (set_fl_shut v s). Proof. now apply kt_intro. Qed.
#[export] Hint Resolve kt_set_fl_shut : kt.
Lemma kt_set_fl_self v s : kt s (set_fl_self v s). Proof. now apply kt_intro. Qed.
#[export] Hint Resolve kt_set_fl_self : kt.
Lemma kt_set_fl_gce v s : kt s (set_fl_gce v s). Proof. now apply kt_intro. Qed.
#[export] Hint Resolve kt_set_fl_gce : kt.
Lemma kt_set_fl_gcc v s : kt s (set_fl_gcc v s). Proof. now apply kt_intro. Qed.
#[export] Hint Resolve kt_set_fl_gcc : kt.
Lemma kt_set_fl_reset v s : kt s (set_fl_reset v s). Proof. now apply kt_intro. Qed.
#[export] Hint Resolve kt_set_fl_reset : kt.
Lemma kt_set_fl_gcreset v s : kt s (set_fl_gcreset v s). Proof. now apply kt_intro. Qed.
#[export] Hint Resolve kt_set_fl_gcreset : kt.
Lemma kt_retry s : kt s (set_popr (sec s + x_retry (cf s)) s). Proof. constructor; auto. Qed.
Lemma kt_fold {A} (f : node -> A -> node) : (forall s x, kt s (f s x)) -> forall l s, kt s (fold_left f l s).
Proof. intros F l. induction l as [|x r IH]; intro s; cbn [fold_left]; [apply kt_refl|]. eapply kt_trans; [apply F|apply IH]. Qed.
Lemma kt_set_connecting v s : kt s (set_connecting v s). Proof. now apply kt_intro. Qed.
#[export] Hint Resolve kt_set_connecting : kt.
Lemma kt_set_pings v s : kt s (set_pings v s). Proof. now apply kt_intro. Qed.
#[export] Hint Resolve kt_set_pings : kt.
Lemma kt_set_pend v s : kt s (set_pend v s). Proof. now apply kt_intro. Qed.
#[export] Hint Resolve kt_set_pend : kt.
Lemma kt_set_lpend v s : kt s (set_lpend v s). Proof. now apply kt_intro. Qed.
#[export] Hint Resolve kt_set_lpend : kt.
Lemma kt_set_gce v s : kt s (set_gce v s). Proof. now apply kt_intro. Qed.
#[export] Hint Resolve kt_set_gce : kt.
Lemma kt_set_gcc v s : kt s (set_gcc v s). Proof. now apply kt_intro. Qed.
#[export] Hint Resolve kt_set_gcc : kt.
Lemma kt_set_procs v s : kt s (set_procs v s). Proof. now apply kt_intro. Qed.
#[export] Hint Resolve kt_set_procs : kt.
Lemma kt_set_seqn v s : kt s (set_seqn v s). Proof. now apply kt_intro. Qed.
#[export] Hint Resolve kt_set_seqn : kt.
Lemma kt_set_qdata v s : kt s (set_qdata v s). Proof. now apply kt_intro. Qed.
#[export] Hint Resolve kt_set_qdata : kt.
Lemma kt_set_qcmd v s : kt s (set_qcmd v s). Proof. now apply kt_intro. Qed.
#[export] Hint Resolve kt_set_qcmd : kt.
Lemma kt_set_orc v s : kt s (set_orc v s). Proof. now apply kt_intro. Qed.
#[export] Hint Resolve kt_set_orc : kt.
Lemma kt_set_salts v s : kt s (set_salts v s). Proof. now apply kt_intro. Qed.
#[export] Hint Resolve kt_set_salts : kt.
Lemma kt_set_cs v s : kt s (set_cs v s). Proof. now apply kt_intro. Qed.
#[export] Hint Resolve kt_set_cs : kt.
Lemma kt_set_es v s : kt s (set_es v s). Proof. now apply kt_intro. Qed.
#[export] Hint Resolve kt_set_es : kt.
Lemma kt_set_nextc v s : kt s (set_nextc v s). Proof. now apply kt_intro. Qed.
#[export] Hint Resolve kt_set_nextc : kt.
Lemma kt_set_nexte v s : kt s (set_nexte v s). Proof. now apply kt_intro. Qed.
#[export] Hint Resolve kt_set_nexte : kt.
Lemma kt_on_c c f s : kt s (on_c c f s). Proof. qframe. Qed.
#[export] Hint Resolve kt_on_c : kt.
Lemma kt_on_e e f s : kt s (on_e e f s). Proof. qframe. Qed.
#[export] Hint Resolve kt_on_e : kt.
Lemma kt_emit t s : kt s (emit t s). Proof. qframe. Qed.
#[export] Hint Resolve kt_emit : kt.
Lemma kt_rm_timer c s : kt s (rm_timer c s). Proof. qframe. Qed.
#[export] Hint Resolve kt_rm_timer : kt.
Lemma kt_set_status c v s : kt s (set_status c v s). Proof. qframe. Qed.
#[export] Hint Resolve kt_set_status : kt.
Lemma kt_shutdown z s : kt s (shutdown z s). Proof. qframe. Qed.
#[export] Hint Resolve kt_shutdown : kt.
Lemma kt_fatal_shutdown z s : kt s (fatal_shutdown z s). Proof. qframe. Qed.
#[export] Hint Resolve kt_fatal_shutdown : kt.
Lemma kt_on_actived  s : kt s (on_actived  s). Proof. qframe. Qed.
#[export] Hint Resolve kt_on_actived : kt.
Lemma kt_rm_proc a s : kt s (rm_proc a s). Proof. qframe. Qed.
#[export] Hint Resolve kt_rm_proc : kt.
Lemma kt_add_proc c s : kt s (add_proc c s). Proof. qframe. Qed.
#[export] Hint Resolve kt_add_proc : kt.
Lemma kt_add_timer c s : kt s (add_timer c s). Proof. qframe. Qed.
#[export] Hint Resolve kt_add_timer : kt.
Lemma kt_gc_conn c s : kt s (gc_conn c s). Proof. qframe. Qed.
#[export] Hint Resolve kt_gc_conn : kt.
Lemma kt_gc_ep e s : kt s (gc_ep e s). Proof. qframe. Qed.
#[export] Hint Resolve kt_gc_ep : kt.
Lemma kt_clear_ping e s : kt s (clear_ping e s). Proof. qframe. Qed.
#[export] Hint Resolve kt_clear_ping : kt.
Lemma kt_insert_ping e s : kt s (insert_ping e s). Proof. qframe. Qed.
#[export] Hint Resolve kt_insert_ping : kt.
Lemma kt_add_ping e s : kt s (add_ping e s). Proof. qframe. Qed.
#[export] Hint Resolve kt_add_ping : kt.
Lemma kt_on_disconnect c s : kt s (on_disconnect c s). Proof. unfold on_disconnect. destruct (_ && _ && _); [|apply kt_refl]. cbv zeta.
  assert (K : kt s (set_popr (sec s + x_retry (cf s)) (set_nst NLost s))) by (constructor; auto).
  destruct (fl_act _); [exact K|]. eapply kt_trans; [exact K|apply kt_fatal_shutdown]. Qed.
#[export] Hint Resolve kt_on_disconnect : kt.
Lemma kt_disconnect c s : kt s (disconnect c s). Proof. unfold disconnect. qgo. Qed.
#[export] Hint Resolve kt_disconnect : kt.
Lemma kt_conn_close c s : kt s (conn_close c s). Proof. unfold conn_close. qgo. Qed.
#[export] Hint Resolve kt_conn_close : kt.
Lemma kt_conn_fin c s : kt s (conn_fin c s). Proof. unfold conn_fin. qgo. Qed.
#[export] Hint Resolve kt_conn_fin : kt.
Lemma kt_conn_reset_in c s : kt s (conn_reset_in c s). Proof. unfold conn_reset_in. qgo. Qed.
#[export] Hint Resolve kt_conn_reset_in : kt.
Lemma kt_resets l s : kt s (fold_left (fun s c => conn_reset_in c s) l s). Proof. apply kt_fold. intros. apply kt_conn_reset_in. Qed.
#[export] Hint Resolve kt_resets : kt.
Lemma kt_ep_reset b g e s : kt s (ep_reset b g e s). Proof. unfold ep_reset. qgo. Qed.
#[export] Hint Resolve kt_ep_reset : kt.
Lemma kt_conn_reset c s : kt s (conn_reset c s). Proof. unfold conn_reset. qgo. Qed.
#[export] Hint Resolve kt_conn_reset : kt.
Lemma kt_ep_drop e s : kt s (ep_drop e s). Proof. unfold ep_drop. qgo. Qed.
#[export] Hint Resolve kt_ep_drop : kt.
Lemma kt_conn_drop c s : kt s (conn_drop c s). Proof. unfold conn_drop. qgo. Qed.
#[export] Hint Resolve kt_conn_drop : kt.
Lemma kt_conn_fault c s : kt s (conn_fault c s). Proof. unfold conn_fault. qgo. Qed.
#[export] Hint Resolve kt_conn_fault : kt.
Lemma kt_remove_endpoint i x s : kt s (fst (remove_endpoint i x s)). Proof. unfold remove_endpoint. destruct (is_parent s i).
  - destruct (parent s) as [p|]; [|apply kt_refl]. destruct (match x with Some _ => _ | None => _ end); [apply kt_refl|]. cbv zeta.
    assert (K : kt s (set_popr (sec s + x_retry (cf s)) (set_nst NLost (set_parent None s)))) by (constructor; auto).
    cbn [fst]. qmvn K s1. qgo.
  - qgo. Qed.
#[export] Hint Resolve kt_remove_endpoint : kt.
Lemma kt_ep_fault e s : kt s (fst (ep_fault e s)). Proof. unfold ep_fault. qgo. Qed.
#[export] Hint Resolve kt_ep_fault : kt.
Lemma kt_parent_reg_done s : kt s (parent_reg_done s). Proof. unfold parent_reg_done. cbv zeta. cbn.
  destruct (N.ltb_spec (sec s + x_ping (cf s)) (popr s)); [constructor; cbn; auto|apply kt_intro; reflexivity]. Qed.
#[export] Hint Resolve kt_parent_reg_done : kt.
Lemma kt_add_listen e a s : kt s (add_listen e a s). Proof. qframe. Qed.
#[export] Hint Resolve kt_add_listen : kt.
Lemma kt_written c z n s : kt s (written c z n s). Proof. qframe. Qed.
#[export] Hint Resolve kt_written : kt.
Lemma kt_conn_create  s : kt s (fst (conn_create  s)). Proof. qframe. Qed.
#[export] Hint Resolve kt_conn_create : kt.
Lemma kt_ep_create i u p h s : kt s (fst (ep_create i u p h s)). Proof. qframe. Qed.
#[export] Hint Resolve kt_ep_create : kt.
Lemma kt_add_connection e c b s : kt s (fst (add_connection e c b s)). Proof. qframe. Qed.
#[export] Hint Resolve kt_add_connection : kt.
Lemma kt_created e s : kt s (fst (created e s)). Proof. qframe. Qed.
#[export] Hint Resolve kt_created : kt.
Lemma kt_alloc_seq  s : kt s (fst (alloc_seq  s)). Proof. qframe. Qed.
#[export] Hint Resolve kt_alloc_seq : kt.
Lemma kt_take_orc  s : kt s (fst (take_orc  s)). Proof. qframe. Qed.
#[export] Hint Resolve kt_take_orc : kt.
Lemma kt_take_salt  s : kt s (fst (take_salt  s)). Proof. qframe. Qed.
#[export] Hint Resolve kt_take_salt : kt.
Lemma kt_push c m s : kt s (fst (push c m s)). Proof. qframe. Qed.
#[export] Hint Resolve kt_push : kt.
Lemma kt_send_on c m s : kt s (fst (send_on c m s)). Proof. qframe. Qed.
#[export] Hint Resolve kt_send_on : kt.
Lemma kt_add_endpoint e s : kt s (fst (add_endpoint e s)). Proof. qframe. Qed.
#[export] Hint Resolve kt_add_endpoint : kt.

Lemma kt_gen_keys ts : forall s, kt s (fst (gen_keys ts s)).
Proof. induction ts as [|t r IH]; intro s; cbn [gen_keys]; qgo. Qed.
#[export] Hint Resolve kt_gen_keys : kt.
Lemma kt_send_reg rsp c z q s : kt s (fst (send_reg rsp c z q s)). Proof. unfold send_reg. qgo. Qed.
#[export] Hint Resolve kt_send_reg : kt.
Lemma kt_send_ping c q s : kt s (fst (send_ping c q s)). Proof. unfold send_ping. qgo. Qed.
#[export] Hint Resolve kt_send_ping : kt.
Lemma kt_on_new_connection c s : kt s (on_new_connection c s). Proof. unfold on_new_connection. qgo. Qed.
#[export] Hint Resolve kt_on_new_connection : kt.
Lemma kt_number m s : kt s (fst (number m s)). Proof. unfold number. qgo. Qed.
#[export] Hint Resolve kt_number : kt.
Lemma kt_post d i m s : kt s (fst (post d i m s)). Proof. unfold post. qgo. Qed.
#[export] Hint Resolve kt_post : kt.
Lemma kt_send_cmd_rsp oc d t z q f s : kt s (fst (send_cmd_rsp oc d t z q f s)). Proof. unfold send_cmd_rsp. qgo. Qed.
#[export] Hint Resolve kt_send_cmd_rsp : kt.
Lemma kt_cmd_req oc h q s : kt s (fst (cmd_req oc h q s)). Proof. unfold cmd_req. qgo. Qed.
#[export] Hint Resolve kt_cmd_req : kt.
Lemma kt_cmd_rsp oc h q s : kt s (fst (cmd_rsp oc h q s)). Proof. unfold cmd_rsp. qgo. Qed.
#[export] Hint Resolve kt_cmd_rsp : kt.
Lemma kt_self_data m s : kt s (self_data m s). Proof. unfold self_data. qgo. Qed.
#[export] Hint Resolve kt_self_data : kt.
Lemma kt_self_cmd m s : kt s (self_cmd m s). Proof. unfold self_cmd. qgo. Qed.
#[export] Hint Resolve kt_self_cmd : kt.
Lemma kt_data_loop n : forall s, kt s (fst (fst (self_data_loop n s))).
Proof. induction n as [|n IH]; intro s; cbn [self_data_loop]; qgo. Qed.
Lemma kt_cmd_loop n : forall s, kt s (fst (self_cmd_loop n s)).
Proof. induction n as [|n IH]; intro s; cbn [self_cmd_loop]; qgo. Qed.
#[export] Hint Resolve kt_data_loop kt_cmd_loop : kt.
Lemma kt_dispatch_self s : kt s (fst (dispatch_self s)).
Proof. unfold dispatch_self. qgo. Qed.
#[export] Hint Resolve kt_dispatch_self : kt.
Lemma kt_send_to d i m s : kt s (fst (send_to d i m s)). Proof. unfold send_to. qgo. Qed.
#[export] Hint Resolve kt_send_to : kt.
Lemma kt_conn_connect c a s : kt s (fst (conn_connect c a s)). Proof. unfold conn_connect. qgo. Qed.
#[export] Hint Resolve kt_conn_connect : kt.
Lemma kt_connect a s : kt s (fst (connect a s)). Proof. unfold connect. qgo. Qed.
#[export] Hint Resolve kt_connect : kt.
Lemma kt_connect_ep a e s : kt s (fst (connect_ep a e s)). Proof. unfold connect_ep. qgo. Qed.
#[export] Hint Resolve kt_connect_ep : kt.
Lemma kt_listen_cb c z s : kt s (listen_cb c z s). Proof. unfold listen_cb. qgo. Qed.
#[export] Hint Resolve kt_listen_cb : kt.
Lemma kt_conn_listen c a s : kt s (fst (conn_listen c a s)). Proof. unfold conn_listen. qgo. Qed.
#[export] Hint Resolve kt_conn_listen : kt.
Lemma kt_listen a s : kt s (fst (listen a s)). Proof. unfold listen. qgo. Qed.
#[export] Hint Resolve kt_listen : kt.
Lemma kt_connected_cb c z s : kt s (connected_cb c z s). Proof. unfold connected_cb. qgo. Qed.
#[export] Hint Resolve kt_connected_cb : kt.
Lemma kt_listened c z s : kt s (listened c z s). Proof. unfold listened. qgo. Qed.
#[export] Hint Resolve kt_listened : kt.
Lemma kt_accept_failed s : kt s (accept_failed s). Proof. unfold accept_failed. qgo. Qed.
#[export] Hint Resolve kt_accept_failed : kt.
Lemma kt_accepted a s : kt s (accepted a s). Proof. unfold accepted. qgo. Qed.
#[export] Hint Resolve kt_accepted : kt.
Lemma kt_peer_closed c s : kt s (peer_closed c s). Proof. unfold peer_closed. qgo. Qed.
#[export] Hint Resolve kt_peer_closed : kt.
Lemma kt_node_disconnect i s : kt s (fst (node_disconnect i s)). Proof. unfold node_disconnect. qgo. Qed.
#[export] Hint Resolve kt_node_disconnect : kt.
Lemma kt_transfer_rsp h w z s : kt s (fst (transfer_rsp h w z s)). Proof. unfold transfer_rsp. qgo. Qed.
#[export] Hint Resolve kt_transfer_rsp : kt.
Lemma kt_forward r h w f t s : kt s (fst (fst (fst (forward r h w f t s)))). Proof. unfold forward. qgo. Qed.
#[export] Hint Resolve kt_forward : kt.
Lemma kt_connect_sync x y s : kt s (fst (connect_sync x y s)). Proof. unfold connect_sync. qgo. Qed.
#[export] Hint Resolve kt_connect_sync : kt.
Lemma kt_data_req c h w s : kt s (fst (data_req c h w s)). Proof. unfold data_req. qgo. Qed.
#[export] Hint Resolve kt_data_req : kt.
Lemma kt_data_rsp c h w s : kt s (fst (data_rsp c h w s)). Proof. unfold data_rsp. qgo. Qed.
#[export] Hint Resolve kt_data_rsp : kt.
Lemma kt_sync_msg r c h s : kt s (fst (sync_msg r c h s)). Proof. unfold sync_msg. qgo. Qed.
#[export] Hint Resolve kt_sync_msg : kt.
Lemma kt_reg_deny c z q s : kt s (fst (reg_deny c z q s)). Proof. unfold reg_deny. qgo. Qed.
#[export] Hint Resolve kt_reg_deny : kt.
Lemma kt_open_channels e can l : forall has s, kt s (fst (open_channels e can l has s)).
Proof. induction l as [|x r IH]; intros has s; cbn [open_channels]; qgo. Qed.
#[export] Hint Resolve kt_open_channels : kt.
Lemma kt_welcome c e r s : kt s (welcome c e r s). Proof. unfold welcome. qgo. Qed.
#[export] Hint Resolve kt_welcome : kt.
Lemma kt_reg_body c r s : kt s (fst (reg_body c r s)). Proof. unfold reg_body. qgo. Qed.
#[export] Hint Resolve kt_reg_body : kt.
Lemma kt_reg_req c h r s : kt s (fst (reg_req c h r s)). Proof. unfold reg_req. qgo. Qed.
#[export] Hint Resolve kt_reg_req : kt.
Lemma kt_reg_rsp c h r s : kt s (fst (reg_rsp c h r s)). Proof. unfold reg_rsp. qgo. Qed.
#[export] Hint Resolve kt_reg_rsp : kt.
Lemma kt_conn_syn c h a s : kt s (fst (conn_syn c h a s)). Proof. unfold conn_syn. qgo. Qed.
#[export] Hint Resolve kt_conn_syn : kt.
Lemma kt_ping_msg c h t s : kt s (fst (ping_msg c h t s)). Proof. unfold ping_msg. qgo. Qed.
#[export] Hint Resolve kt_ping_msg : kt.
Lemma kt_pong_msg c h t s : kt s (fst (pong_msg c h t s)). Proof. unfold pong_msg. qgo. Qed.
#[export] Hint Resolve kt_pong_msg : kt.
Lemma kt_dispatch_msg c m s : kt s (fst (dispatch_msg c m s)). Proof. unfold dispatch_msg. qgo. Qed.
#[export] Hint Resolve kt_dispatch_msg : kt.
Lemma kt_fault_of c s : kt s (fault_of c s). Proof. unfold fault_of. qgo. Qed.
#[export] Hint Resolve kt_fault_of : kt.
Lemma kt_on_recv c m s : kt s (on_recv c m s). Proof. unfold on_recv. qgo. Qed.
#[export] Hint Resolve kt_on_recv : kt.
Lemma kt_recv_item c i s : kt s (recv_item c i s). Proof. unfold recv_item. qgo. Qed.
#[export] Hint Resolve kt_recv_item : kt.
Lemma kt_proc_items n c : forall l s, kt s (proc_items n c l s).
Proof. induction n as [|n IH]; intros l s; cbn [proc_items]; qgo. Qed.
#[export] Hint Resolve kt_proc_items : kt.
Lemma kt_proc_one s p : kt s (proc_one s p).
Proof. destruct p as [c l]. unfold proc_one. qgo. Qed.
Lemma kt_sweep n now : forall s, kt s (sweep n now s).
Proof. induction n as [|n IH]; intro s; cbn [sweep]; qgo. Qed.
#[export] Hint Resolve kt_sweep : kt.
Lemma kt_fault_drop h e s : kt s (fst (fault_drop h e s)). Proof. unfold fault_drop. qgo. Qed.
#[export] Hint Resolve kt_fault_drop : kt.
Lemma kt_ping_endpoint h e s : kt s (fst (ping_endpoint h e s)). Proof. unfold ping_endpoint. qgo. Qed.
#[export] Hint Resolve kt_ping_endpoint : kt.
Lemma kt_idle_out n e s : kt s (fst (idle_out n e s)). Proof. unfold idle_out. qgo. Qed.
#[export] Hint Resolve kt_idle_out : kt.
Lemma kt_release nx s : kt s (release nx s). Proof. unfold release. qgo. Qed.
#[export] Hint Resolve kt_release : kt.
Lemma kt_ping_loop now n : forall nx s s', ping_loop n now nx s = Some s' -> kt s s'.
Proof.
  induction n as [|n IH]; intros nx s s' X; cbn [ping_loop] in X; [discriminate|].
  destruct (pings s) as [|[t e0] l]; [injection X as <-; apply kt_release|].
  destruct (now <? t); [injection X as <-; apply kt_release|]. cbv zeta in X.
  set (e := match nx with Some e => e | None => e0 end) in X.
  pose proof (kt_idle_out now e s) as K. destruct (idle_out now e s) as [s1 out]. cbn [fst] in K. qmvn K s2.
  destruct out.
  - apply IH in X. refine (kt_trans _ _ _ _ X). qgo.
  - set (s3 := if match parent s2 with Some p => e_ref p =? e | None => false end then s2 else fst (ping_endpoint true e s2)) in X.
    assert (K : kt s2 s3) by (unfold s3; destruct (match parent s2 with Some p => _ | None => _ end); qgo).
    clearbody s3. qmvn K s5.
    set (s4 := add_ping (d_ep (es s5 e)) s5) in X.
    assert (K : kt s5 s4) by (unfold s4; qgo). clearbody s4. qmvn K s6.
    destruct (pings s6) as [|[t2 e2] r]; [injection X as <-; qgo|].
    destruct (now <? t2); [injection X as <-; qgo|].
    destruct (negb (t2 =? t)); [|destruct (e2 =? e)]; apply IH in X; refine (kt_trans _ _ _ _ X); qgo.
Qed.
Lemma kt_gc_one s x : kt s (gc_one s x).
Proof. unfold gc_one. qgo. Qed.
Lemma kt_drop_ep s e : kt s (drop_ep s e). Proof. apply kt_ep_drop. Qed.
Lemma kt_gcs l s : kt s (fold_left gc_one l s). Proof. apply kt_fold. intros. apply kt_gc_one. Qed.
Lemma kt_drops l s : kt s (fold_left drop_ep l s). Proof. apply kt_fold. intros. apply kt_drop_ep. Qed.
Lemma kt_cdrops l s : kt s (fold_left (fun s c => conn_drop c s) l s). Proof. apply kt_fold. intros. apply kt_conn_drop. Qed.
#[export] Hint Resolve kt_gcs kt_drops kt_cdrops : kt.
Lemma kt_collect s : kt s (collect s).
Proof. unfold collect. qgo. Qed.
#[export] Hint Resolve kt_collect : kt.
Lemma kt_send_data a b c d e s : kt s (fst (send_data a b c d e s)). Proof. unfold send_data. qgo. Qed.
#[export] Hint Resolve kt_send_data : kt.
Lemma kt_send_custom a b c s : kt s (fst (send_custom a b c s)). Proof. unfold send_custom. qgo. Qed.
#[export] Hint Resolve kt_send_custom : kt.
Lemma kt_io_step i s : kt s (io_step i s).
Proof. unfold io_step. qgo. Qed.
#[export] Hint Resolve kt_io_step : kt.
Lemma kt_drain n : forall s, kt s (drain n s).
Proof. induction n as [|n IH]; intro s; cbn [drain]; qgo. Qed.
#[export] Hint Resolve kt_drain : kt.
Lemma kt_drop_connecting n : forall s, kt s (drop_connecting n s).
Proof. induction n as [|n IH]; intro s; cbn [drop_connecting]; qgo. Qed.
#[export] Hint Resolve kt_drop_connecting : kt.
Lemma kt_finish_connects l : forall s, kt s (finish_connects l s).
Proof. induction l as [|c l IH]; intro s; cbn [finish_connects]; qgo. Qed.
#[export] Hint Resolve kt_finish_connects : kt.
Lemma kt_finish_listens l : forall s, kt s (finish_listens l s).
Proof. induction l as [|c l IH]; intro s; cbn [finish_listens]; qgo. Qed.
#[export] Hint Resolve kt_finish_listens : kt.
Lemma kt_f1 l s : kt s (fold_left (fun s (p : bytes * N) => conn_reset (snd p) s) l s). Proof. apply kt_fold. intros. apply kt_conn_reset. Qed.
Lemma kt_f2 l s : kt s (fold_left (fun s e => emit (TRemoved e) s) l s). Proof. apply kt_fold. intros. apply kt_emit. Qed.
Lemma kt_f3 l s : kt s (fold_left (fun s (p : N * N) => clear_ping (snd p) (ep_reset None false (snd p) s)) l s).
Proof. apply kt_fold. intros. eapply kt_trans; [apply kt_ep_reset|apply kt_clear_ping]. Qed.
#[export] Hint Resolve kt_f1 kt_f2 kt_f3 : kt.
Lemma kt_reset s : kt s (reset s).
Proof. unfold reset. qgo. Qed.
#[export] Hint Resolve kt_reset : kt.
Lemma kt_stop_if_shut s : kt s (stop_if_shut s). Proof. unfold stop_if_shut. qgo. Qed.
#[export] Hint Resolve kt_stop_if_shut : kt.
Lemma kt_ios l s : kt s (fold_left (fun s i => io_step i s) l s). Proof. apply kt_fold. intros. apply kt_io_step. Qed.
#[export] Hint Resolve kt_ios : kt.
Lemma kt_poll l s : kt s (poll l s). Proof. unfold poll. qgo. Qed.
#[export] Hint Resolve kt_poll : kt.
