(** A node that is up: what cannot take it down. *)
From Verif Require Import Base Subnet Route Address NodeTypes NodeConn NodeCore NodeMsg Node
  NodeFrame NodeReset NodeInv NodeKeep.
Local Open Scope N_scope.
Ltac Zify.zify_post_hook ::= idtac.

(** Once up, the node stays up and is not shut down. *)
Record kd (s s' : node) : Prop := {
  U_self : self s' = self s;
  U_up : fl_act s = true -> fl_act s' = true /\ fl_shut s' = fl_shut s }.
Lemma kd_refl s : kd s s. Proof. constructor; auto. Qed.
Lemma kd_trans s1 s2 s3 : kd s1 s2 -> kd s2 s3 -> kd s1 s3.
Proof.
  intros [A1 A2] [B1 B2]. constructor; [congruence|]. intro F. destruct (A2 F) as [F2 G]. destruct (B2 F2). split; congruence.
Qed.
Lemma kd_intro s s' : self s' = self s -> fl_act s' = fl_act s -> fl_shut s' = fl_shut s -> kd s s'.
Proof. intros A B C. constructor; trivial. intro F. split; congruence. Qed.

Create HintDb kd discriminated.
#[export] Hint Constants Opaque : kd.
#[export] Hint Variables Opaque : kd.
Ltac wmvn H v :=
  lazymatch type of H with
  | kd ?s ?s1 => refine (kd_trans s s1 _ H _); clear H; set (v := s1) in *; clearbody v
  end.
Ltac wmv H := let v := fresh "s" in wmvn H v.
Ltac wleaf := solve [eauto 3 with kd].
Ltac wg1 :=
  cbv beta;
  lazymatch goal with
  | |- kd ?s ?s => apply kd_refl
  | |- kd ?s (fst (let x := ?e in @?b x)) => wg_let s e ltac:(fun e' => change (kd s (fst (b e'))))
  | |- kd ?s (let x := ?e in @?b x) => wg_let s e ltac:(fun e' => change (kd s (b e')))
  | |- kd ?s (fst (fst (let x := ?e in @?b x))) => wg_let s e ltac:(fun e' => change (kd s (fst (fst (b e')))))
  | |- kd ?s (fst (fst (fst (let x := ?e in @?b x)))) => wg_let s e ltac:(fun e' => change (kd s (fst (fst (fst (b e'))))))
  | |- kd ?s (fst (fst (fst (match ?x with _ => _ end)))) => wg_case s x
  | |- kd ?s (fst (fst (match ?x with _ => _ end))) => wg_case s x
  | |- kd ?s (fst (match ?x with _ => _ end)) => wg_case s x
  | |- kd ?s (match ?x with _ => _ end) => wg_case s x
  | |- kd ?s (fst (fst (fst (?x, ?y)))) => change (kd s (fst (fst x)))
  | |- kd ?s (fst (fst (?x, ?y))) => change (kd s (fst x))
  | |- kd ?s (fst (?x, ?y)) => change (kd s x)
  | |- kd ?s (fst (fst (fst (?h ?t)))) => wg_at s t
  | |- kd ?s (fst (fst (?h ?t))) => wg_at s t
  | |- kd ?s (fst (?h ?t)) => wg_at s t
  | |- kd ?s (?g ?t) => wg_at s t
  end
with wg_at s t :=
  first [ constr_eq s t; wleaf
        | let H := fresh in assert (H : kd s t) by (repeat wg1); wmv H; wleaf ]
with wg_let s e k :=
  lazymatch type of e with
  | node =>
      first [ constr_eq s e; k s; cbv beta
            | let H := fresh in assert (H : kd s e) by (repeat wg1); k e; cbv beta; wmv H ]
  | _ => let v := fresh in set (v := e); k v; cbv beta; clearbody v
  end
with wg_case s x :=
  lazymatch type of x with
  | (node * _)%type =>
      let H := fresh in assert (H : kd s (fst x)) by (repeat wg1);
      let E := fresh "E" in destruct x as [? ?] eqn:E; cbn [fst] in H; clear E; wmv H
  | (node * _ * _)%type =>
      let H := fresh in assert (H : kd s (fst (fst x))) by (repeat wg1);
      let E := fresh "E" in destruct x as [[? ?] ?] eqn:E; cbn [fst] in H; clear E; wmv H
  | (node * _ * _ * _)%type =>
      let H := fresh in assert (H : kd s (fst (fst (fst x)))) by (repeat wg1);
      let E := fresh "E" in destruct x as [[[? ?] ?] ?] eqn:E; cbn [fst] in H; clear E; wmv H
  | _ => let E := fresh "E" in destruct x eqn:E in |- *
  end.
Ltac wgo := repeat wg1.
Ltac wframe := intros; apply kd_intro; first [reflexivity | fr1].
Lemma kd_set_nst v s : kd s (set_nst v s). Proof. now apply kd_intro. Qed.
#[export] Hint Resolve kd_set_nst : kd.
Lemma kd_set_parent v s : kd s (set_parent v s). Proof. now apply kd_intro. Qed.
#[export] Hint Resolve kd_set_parent : kd.
Lemma kd_set_routes v s : kd s (set_routes v s). Proof. now apply kd_intro. Qed.
#[export] Hint Resolve kd_set_routes : kd.
Lemma kd_set_fl_preg v s : kd s (set_fl_preg v s). Proof. now apply kd_intro. Qed.
#[export] Hint Resolve kd_set_fl_preg : kd.
Lemma kd_set_fl_self v s : kd s (set_fl_self v s). Proof. now apply kd_intro. Qed.
#[export] Hint Resolve kd_set_fl_self : kd.
Lemma kd_set_fl_gce v s : kd s (set_fl_gce v s). Proof. now apply kd_intro. Qed.
#[export] Hint Resolve kd_set_fl_gce : kd.
Lemma kd_set_fl_gcc v s : kd s (set_fl_gcc v s). Proof. now apply kd_intro. Qed.
#[export] Hint Resolve kd_set_fl_gcc : kd.
Lemma kd_set_fl_gcreset v s : kd s (set_fl_gcreset v s). Proof. now apply kd_intro. Qed.
#[export] Hint Resolve kd_set_fl_gcreset : kd.
Lemma kd_fold {A} (f : node -> A -> node) : (forall s x, kd s (f s x)) -> forall l s, kd s (fold_left f l s).
Proof. intros F l. induction l as [|x r IH]; intro s; cbn [fold_left]; [apply kd_refl|]. eapply kd_trans; [apply F|apply IH]. Qed.
Lemma kd_set_connecting v s : kd s (set_connecting v s). Proof. now apply kd_intro. Qed.
#[export] Hint Resolve kd_set_connecting : kd.
Lemma kd_set_pings v s : kd s (set_pings v s). Proof. now apply kd_intro. Qed.
#[export] Hint Resolve kd_set_pings : kd.
Lemma kd_set_pend v s : kd s (set_pend v s). Proof. now apply kd_intro. Qed.
#[export] Hint Resolve kd_set_pend : kd.
Lemma kd_set_lpend v s : kd s (set_lpend v s). Proof. now apply kd_intro. Qed.
#[export] Hint Resolve kd_set_lpend : kd.
Lemma kd_set_gce v s : kd s (set_gce v s). Proof. now apply kd_intro. Qed.
#[export] Hint Resolve kd_set_gce : kd.
Lemma kd_set_gcc v s : kd s (set_gcc v s). Proof. now apply kd_intro. Qed.
#[export] Hint Resolve kd_set_gcc : kd.
Lemma kd_set_procs v s : kd s (set_procs v s). Proof. now apply kd_intro. Qed.
#[export] Hint Resolve kd_set_procs : kd.
Lemma kd_set_seqn v s : kd s (set_seqn v s). Proof. now apply kd_intro. Qed.
#[export] Hint Resolve kd_set_seqn : kd.
Lemma kd_set_qdata v s : kd s (set_qdata v s). Proof. now apply kd_intro. Qed.
#[export] Hint Resolve kd_set_qdata : kd.
Lemma kd_set_qcmd v s : kd s (set_qcmd v s). Proof. now apply kd_intro. Qed.
#[export] Hint Resolve kd_set_qcmd : kd.
Lemma kd_set_orc v s : kd s (set_orc v s). Proof. now apply kd_intro. Qed.
#[export] Hint Resolve kd_set_orc : kd.
Lemma kd_set_salts v s : kd s (set_salts v s). Proof. now apply kd_intro. Qed.
#[export] Hint Resolve kd_set_salts : kd.
Lemma kd_set_cs v s : kd s (set_cs v s). Proof. now apply kd_intro. Qed.
#[export] Hint Resolve kd_set_cs : kd.
Lemma kd_set_es v s : kd s (set_es v s). Proof. now apply kd_intro. Qed.
#[export] Hint Resolve kd_set_es : kd.
Lemma kd_set_nextc v s : kd s (set_nextc v s). Proof. now apply kd_intro. Qed.
#[export] Hint Resolve kd_set_nextc : kd.
Lemma kd_set_nexte v s : kd s (set_nexte v s). Proof. now apply kd_intro. Qed.
#[export] Hint Resolve kd_set_nexte : kd.
Lemma kd_on_c c f s : kd s (on_c c f s). Proof. wframe. Qed.
#[export] Hint Resolve kd_on_c : kd.
Lemma kd_on_e e f s : kd s (on_e e f s). Proof. wframe. Qed.
#[export] Hint Resolve kd_on_e : kd.
Lemma kd_emit t s : kd s (emit t s). Proof. wframe. Qed.
#[export] Hint Resolve kd_emit : kd.
Lemma kd_rm_timer c s : kd s (rm_timer c s). Proof. wframe. Qed.
#[export] Hint Resolve kd_rm_timer : kd.
Lemma kd_set_status c v s : kd s (set_status c v s). Proof. wframe. Qed.
#[export] Hint Resolve kd_set_status : kd.
Lemma kd_on_actived s : kd s (on_actived s). Proof. unfold on_actived. cbn [fl_act set_nst]. destruct (fl_act s) eqn:F; [now apply kd_intro|].
  constructor; [reflexivity|]. rewrite F. discriminate. Qed.
#[export] Hint Resolve kd_on_actived : kd.
Lemma kd_fatal_shutdown z s : fl_act s = false -> kd s (fatal_shutdown z s). Proof. intro F. constructor; [fr1|]. rewrite F. discriminate. Qed.
#[export] Hint Resolve kd_fatal_shutdown : kd.
Lemma kd_set_popr v s : kd s (set_popr v s). Proof. now apply kd_intro. Qed.
#[export] Hint Resolve kd_set_popr : kd.
Lemma kd_on_disconnect c s : kd s (on_disconnect c s). Proof. unfold on_disconnect. destruct (_ && _ && _); [|apply kd_refl]. cbv zeta.
  assert (K : kd s (set_popr (sec s + x_retry (cf s)) (set_nst NLost s))) by now apply kd_intro.
  destruct (fl_act _) eqn:F; [exact K|]. eapply kd_trans; [exact K|]. now apply kd_fatal_shutdown. Qed.
#[export] Hint Resolve kd_on_disconnect : kd.
Lemma kd_rm_proc a s : kd s (rm_proc a s). Proof. wframe. Qed.
#[export] Hint Resolve kd_rm_proc : kd.
Lemma kd_add_proc c s : kd s (add_proc c s). Proof. wframe. Qed.
#[export] Hint Resolve kd_add_proc : kd.
Lemma kd_add_timer c s : kd s (add_timer c s). Proof. wframe. Qed.
#[export] Hint Resolve kd_add_timer : kd.
Lemma kd_gc_conn c s : kd s (gc_conn c s). Proof. wframe. Qed.
#[export] Hint Resolve kd_gc_conn : kd.
Lemma kd_gc_ep e s : kd s (gc_ep e s). Proof. wframe. Qed.
#[export] Hint Resolve kd_gc_ep : kd.
Lemma kd_clear_ping e s : kd s (clear_ping e s). Proof. wframe. Qed.
#[export] Hint Resolve kd_clear_ping : kd.
Lemma kd_insert_ping e s : kd s (insert_ping e s). Proof. wframe. Qed.
#[export] Hint Resolve kd_insert_ping : kd.
Lemma kd_add_ping e s : kd s (add_ping e s). Proof. wframe. Qed.
#[export] Hint Resolve kd_add_ping : kd.
Lemma kd_disconnect c s : kd s (disconnect c s). Proof. unfold disconnect. wgo. Qed.
#[export] Hint Resolve kd_disconnect : kd.
Lemma kd_conn_close c s : kd s (conn_close c s). Proof. unfold conn_close. wgo. Qed.
#[export] Hint Resolve kd_conn_close : kd.
Lemma kd_conn_fin c s : kd s (conn_fin c s). Proof. unfold conn_fin. wgo. Qed.
#[export] Hint Resolve kd_conn_fin : kd.
Lemma kd_conn_reset_in c s : kd s (conn_reset_in c s). Proof. unfold conn_reset_in. wgo. Qed.
#[export] Hint Resolve kd_conn_reset_in : kd.
Lemma kd_resets l s : kd s (fold_left (fun s c => conn_reset_in c s) l s). Proof. apply kd_fold. intros. apply kd_conn_reset_in. Qed.
#[export] Hint Resolve kd_resets : kd.
Lemma kd_ep_reset b g e s : kd s (ep_reset b g e s). Proof. unfold ep_reset. wgo. Qed.
#[export] Hint Resolve kd_ep_reset : kd.
Lemma kd_conn_reset c s : kd s (conn_reset c s). Proof. unfold conn_reset. wgo. Qed.
#[export] Hint Resolve kd_conn_reset : kd.
Lemma kd_ep_drop e s : kd s (ep_drop e s). Proof. unfold ep_drop. wgo. Qed.
#[export] Hint Resolve kd_ep_drop : kd.
Lemma kd_conn_drop c s : kd s (conn_drop c s). Proof. unfold conn_drop. wgo. Qed.
#[export] Hint Resolve kd_conn_drop : kd.
Lemma kd_conn_fault c s : kd s (conn_fault c s). Proof. unfold conn_fault. wgo. Qed.
#[export] Hint Resolve kd_conn_fault : kd.
Lemma kd_add_endpoint e s : kd s (fst (add_endpoint e s)). Proof. unfold add_endpoint. wgo. Qed.
#[export] Hint Resolve kd_add_endpoint : kd.
Lemma kd_remove_endpoint i x s : kd s (fst (remove_endpoint i x s)). Proof. unfold remove_endpoint. destruct (is_parent s i).
  - destruct (parent s) as [p|]; [|apply kd_refl]. destruct (match x with Some _ => _ | None => _ end); [apply kd_refl|]. cbv zeta.
    assert (K : kd s (emit (TRemoved (e_ref p)) (set_popr (sec s + x_retry (cf s)) (set_nst NLost (set_parent None s))))) by now apply kd_intro.
    cbn [fst]. wmvn K s1. destruct (fl_act s1) eqn:F; [apply kd_refl|now apply kd_fatal_shutdown].
  - wgo. Qed.
#[export] Hint Resolve kd_remove_endpoint : kd.
Lemma kd_ep_fault e s : kd s (fst (ep_fault e s)). Proof. unfold ep_fault. wgo. Qed.
#[export] Hint Resolve kd_ep_fault : kd.
Lemma kd_add_listen e a s : kd s (add_listen e a s). Proof. wframe. Qed.
#[export] Hint Resolve kd_add_listen : kd.
Lemma kd_written c z n s : kd s (written c z n s). Proof. wframe. Qed.
#[export] Hint Resolve kd_written : kd.
Lemma kd_conn_create  s : kd s (fst (conn_create  s)). Proof. wframe. Qed.
#[export] Hint Resolve kd_conn_create : kd.
Lemma kd_ep_create i u p h s : kd s (fst (ep_create i u p h s)). Proof. wframe. Qed.
#[export] Hint Resolve kd_ep_create : kd.
Lemma kd_add_connection e c b s : kd s (fst (add_connection e c b s)). Proof. wframe. Qed.
#[export] Hint Resolve kd_add_connection : kd.
Lemma kd_created e s : kd s (fst (created e s)). Proof. wframe. Qed.
#[export] Hint Resolve kd_created : kd.
Lemma kd_alloc_seq  s : kd s (fst (alloc_seq  s)). Proof. wframe. Qed.
#[export] Hint Resolve kd_alloc_seq : kd.
Lemma kd_take_orc  s : kd s (fst (take_orc  s)). Proof. wframe. Qed.
#[export] Hint Resolve kd_take_orc : kd.
Lemma kd_take_salt  s : kd s (fst (take_salt  s)). Proof. wframe. Qed.
#[export] Hint Resolve kd_take_salt : kd.
Lemma kd_push c m s : kd s (fst (push c m s)). Proof. wframe. Qed.
#[export] Hint Resolve kd_push : kd.
Lemma kd_send_on c m s : kd s (fst (send_on c m s)). Proof. wframe. Qed.
#[export] Hint Resolve kd_send_on : kd.

Lemma kd_gen_keys ts : forall s, kd s (fst (gen_keys ts s)).
Proof. induction ts as [|t r IH]; intro s; cbn [gen_keys]; wgo. Qed.
#[export] Hint Resolve kd_gen_keys : kd.
Lemma kd_send_reg rsp c z q s : kd s (fst (send_reg rsp c z q s)). Proof. unfold send_reg. wgo. Qed.
#[export] Hint Resolve kd_send_reg : kd.
Lemma kd_send_ping c q s : kd s (fst (send_ping c q s)). Proof. unfold send_ping. wgo. Qed.
#[export] Hint Resolve kd_send_ping : kd.
Lemma kd_on_new_connection c s : kd s (on_new_connection c s). Proof. unfold on_new_connection. wgo. Qed.
#[export] Hint Resolve kd_on_new_connection : kd.
Lemma kd_number m s : kd s (fst (number m s)). Proof. unfold number. wgo. Qed.
#[export] Hint Resolve kd_number : kd.
Lemma kd_post d i m s : kd s (fst (post d i m s)). Proof. unfold post. wgo. Qed.
#[export] Hint Resolve kd_post : kd.
Lemma kd_send_cmd_rsp oc d t z q f s : kd s (fst (send_cmd_rsp oc d t z q f s)). Proof. unfold send_cmd_rsp. wgo. Qed.
#[export] Hint Resolve kd_send_cmd_rsp : kd.
Lemma kd_cmd_req oc h q s : kd s (fst (cmd_req oc h q s)). Proof. unfold cmd_req. wgo. Qed.
#[export] Hint Resolve kd_cmd_req : kd.
Lemma kd_cmd_rsp oc h q s : kd s (fst (cmd_rsp oc h q s)). Proof. unfold cmd_rsp. wgo. Qed.
#[export] Hint Resolve kd_cmd_rsp : kd.
Lemma kd_self_data m s : kd s (self_data m s). Proof. unfold self_data. wgo. Qed.
#[export] Hint Resolve kd_self_data : kd.
Lemma kd_self_cmd m s : kd s (self_cmd m s). Proof. unfold self_cmd. wgo. Qed.
#[export] Hint Resolve kd_self_cmd : kd.
Lemma kd_data_loop n : forall s, kd s (fst (fst (self_data_loop n s))).
Proof. induction n as [|n IH]; intro s; cbn [self_data_loop]; wgo. Qed.
Lemma kd_cmd_loop n : forall s, kd s (fst (self_cmd_loop n s)).
Proof. induction n as [|n IH]; intro s; cbn [self_cmd_loop]; wgo. Qed.
#[export] Hint Resolve kd_data_loop kd_cmd_loop : kd.
Lemma kd_dispatch_self s : kd s (fst (dispatch_self s)).
Proof. unfold dispatch_self. wgo. Qed.
#[export] Hint Resolve kd_dispatch_self : kd.
Lemma kd_send_to d i m s : kd s (fst (send_to d i m s)). Proof. unfold send_to. wgo. Qed.
#[export] Hint Resolve kd_send_to : kd.
Lemma kd_conn_connect c a s : kd s (fst (conn_connect c a s)). Proof. unfold conn_connect. wgo. Qed.
#[export] Hint Resolve kd_conn_connect : kd.
Lemma kd_connect a s : kd s (fst (connect a s)). Proof. unfold connect. wgo. Qed.
#[export] Hint Resolve kd_connect : kd.
Lemma kd_connect_ep a e s : kd s (fst (connect_ep a e s)). Proof. unfold connect_ep. wgo. Qed.
#[export] Hint Resolve kd_connect_ep : kd.
Lemma kd_listen_cb c z s : kd s (listen_cb c z s). Proof. unfold listen_cb. wgo. Qed.
#[export] Hint Resolve kd_listen_cb : kd.
Lemma kd_conn_listen c a s : kd s (fst (conn_listen c a s)). Proof. unfold conn_listen. wgo. Qed.
#[export] Hint Resolve kd_conn_listen : kd.
Lemma kd_listen a s : kd s (fst (listen a s)). Proof. unfold listen. wgo. Qed.
#[export] Hint Resolve kd_listen : kd.
Lemma kd_connected_cb c z s : kd s (connected_cb c z s). Proof. unfold connected_cb. wgo. Qed.
#[export] Hint Resolve kd_connected_cb : kd.
Lemma kd_listened c z s : kd s (listened c z s). Proof. unfold listened. wgo. Qed.
#[export] Hint Resolve kd_listened : kd.
Lemma kd_accept_failed s : kd s (accept_failed s). Proof. unfold accept_failed. wgo. Qed.
#[export] Hint Resolve kd_accept_failed : kd.
Lemma kd_accepted a s : kd s (accepted a s). Proof. unfold accepted. wgo. Qed.
#[export] Hint Resolve kd_accepted : kd.
Lemma kd_peer_closed c s : kd s (peer_closed c s). Proof. unfold peer_closed. wgo. Qed.
#[export] Hint Resolve kd_peer_closed : kd.
Lemma kd_node_disconnect i s : kd s (fst (node_disconnect i s)). Proof. unfold node_disconnect. wgo. Qed.
#[export] Hint Resolve kd_node_disconnect : kd.
Lemma kd_transfer_rsp h w z s : kd s (fst (transfer_rsp h w z s)). Proof. unfold transfer_rsp. wgo. Qed.
#[export] Hint Resolve kd_transfer_rsp : kd.
Lemma kd_forward r h w f t s : kd s (fst (fst (fst (forward r h w f t s)))). Proof. unfold forward. wgo. Qed.
#[export] Hint Resolve kd_forward : kd.
Lemma kd_connect_sync x y s : kd s (fst (connect_sync x y s)). Proof. unfold connect_sync. wgo. Qed.
#[export] Hint Resolve kd_connect_sync : kd.
Lemma kd_data_req c h w s : kd s (fst (data_req c h w s)). Proof. unfold data_req. wgo. Qed.
#[export] Hint Resolve kd_data_req : kd.
Lemma kd_data_rsp c h w s : kd s (fst (data_rsp c h w s)). Proof. unfold data_rsp. wgo. Qed.
#[export] Hint Resolve kd_data_rsp : kd.
Lemma kd_sync_msg r c h s : kd s (fst (sync_msg r c h s)). Proof. unfold sync_msg. wgo. Qed.
#[export] Hint Resolve kd_sync_msg : kd.
Lemma kd_reg_deny c z q s : kd s (fst (reg_deny c z q s)). Proof. unfold reg_deny. wgo. Qed.
#[export] Hint Resolve kd_reg_deny : kd.
Lemma kd_open_channels e can l : forall has s, kd s (fst (open_channels e can l has s)).
Proof. induction l as [|x r IH]; intros has s; cbn [open_channels]; wgo. Qed.
#[export] Hint Resolve kd_open_channels : kd.
Lemma kd_welcome c e r s : kd s (welcome c e r s). Proof. unfold welcome. wgo. Qed.
#[export] Hint Resolve kd_welcome : kd.
Lemma kd_parent_reg_done s : kd s (parent_reg_done s). Proof. unfold parent_reg_done. wgo. Qed.
#[export] Hint Resolve kd_parent_reg_done : kd.
Lemma kd_reg_rsp c h r s : kd s (fst (reg_rsp c h r s)). Proof. unfold reg_rsp. assert (K := kd_emit (TReg c (h_ret h)) s). cbv zeta. wmvn K s1.
  destruct (_ || _).
  - set (s2 := match k_bind (cs s1 c) with Some _ => _ | None => s1 end).
    assert (K : kd s1 s2) by (subst s2; wgo). clearbody s2. cbn [fst]. wmvn K s3.
    set (s4 := if _ && _ then _ else s3). assert (K : kd s3 s4).
    { subst s4. destruct (bytes_eqb _ _); cbn [andb]; [|apply kd_refl]. destruct (fl_act s3) eqn:F; cbn [negb]; [apply kd_refl|now apply kd_fatal_shutdown]. }
    wmvn K s5. wgo.
  - wgo. Qed.
#[export] Hint Resolve kd_reg_rsp : kd.
Lemma kd_conn_syn c h a s : kd s (fst (conn_syn c h a s)). Proof. unfold conn_syn. wgo. Qed.
#[export] Hint Resolve kd_conn_syn : kd.
Lemma kd_ping_msg c h t s : kd s (fst (ping_msg c h t s)). Proof. unfold ping_msg. wgo. Qed.
#[export] Hint Resolve kd_ping_msg : kd.
Lemma kd_pong_msg c h t s : kd s (fst (pong_msg c h t s)). Proof. unfold pong_msg. wgo. Qed.
#[export] Hint Resolve kd_pong_msg : kd.
Lemma kd_fault_of c s : kd s (fault_of c s). Proof. unfold fault_of. wgo. Qed.
#[export] Hint Resolve kd_fault_of : kd.
Lemma kd_sweep n now : forall s, kd s (sweep n now s).
Proof. induction n as [|n IH]; intro s; cbn [sweep]; wgo. Qed.
#[export] Hint Resolve kd_sweep : kd.
Lemma kd_fault_drop h e s : kd s (fst (fault_drop h e s)). Proof. unfold fault_drop. wgo. Qed.
#[export] Hint Resolve kd_fault_drop : kd.
Lemma kd_ping_endpoint h e s : kd s (fst (ping_endpoint h e s)). Proof. unfold ping_endpoint. wgo. Qed.
#[export] Hint Resolve kd_ping_endpoint : kd.
Lemma kd_idle_out n e s : kd s (fst (idle_out n e s)). Proof. unfold idle_out. wgo. Qed.
#[export] Hint Resolve kd_idle_out : kd.
Lemma kd_release nx s : kd s (release nx s). Proof. unfold release. wgo. Qed.
#[export] Hint Resolve kd_release : kd.
Lemma kd_ping_loop now n : forall nx s s', ping_loop n now nx s = Some s' -> kd s s'.
Proof.
  induction n as [|n IH]; intros nx s s' X; cbn [ping_loop] in X; [discriminate|].
  destruct (pings s) as [|[t e0] l]; [injection X as <-; apply kd_release|].
  destruct (now <? t); [injection X as <-; apply kd_release|]. cbv zeta in X.
  set (e := match nx with Some e => e | None => e0 end) in X.
  pose proof (kd_idle_out now e s) as K. destruct (idle_out now e s) as [s1 out]. cbn [fst] in K. wmvn K s2.
  destruct out.
  - apply IH in X. refine (kd_trans _ _ _ _ X). wgo.
  - set (s3 := if match parent s2 with Some p => e_ref p =? e | None => false end then s2 else fst (ping_endpoint true e s2)) in X.
    assert (K : kd s2 s3) by (unfold s3; destruct (match parent s2 with Some p => _ | None => _ end); wgo).
    clearbody s3. wmvn K s5.
    set (s4 := add_ping (d_ep (es s5 e)) s5) in X.
    assert (K : kd s5 s4) by (unfold s4; wgo). clearbody s4. wmvn K s6.
    destruct (pings s6) as [|[t2 e2] r]; [injection X as <-; wgo|].
    destruct (now <? t2); [injection X as <-; wgo|].
    destruct (negb (t2 =? t)); [|destruct (e2 =? e)]; apply IH in X; refine (kd_trans _ _ _ _ X); wgo.
Qed.
Lemma kd_gc_one s x : kd s (gc_one s x).
Proof. unfold gc_one. wgo. Qed.
Lemma kd_drop_ep s e : kd s (drop_ep s e). Proof. apply kd_ep_drop. Qed.
Lemma kd_gcs l s : kd s (fold_left gc_one l s). Proof. apply kd_fold. intros. apply kd_gc_one. Qed.
Lemma kd_drops l s : kd s (fold_left drop_ep l s). Proof. apply kd_fold. intros. apply kd_drop_ep. Qed.
Lemma kd_cdrops l s : kd s (fold_left (fun s c => conn_drop c s) l s). Proof. apply kd_fold. intros. apply kd_conn_drop. Qed.
#[export] Hint Resolve kd_gcs kd_drops kd_cdrops : kd.
Lemma kd_collect s : kd s (collect s).
Proof. unfold collect. wgo. Qed.
#[export] Hint Resolve kd_collect : kd.
Lemma kd_send_data a b c d e s : kd s (fst (send_data a b c d e s)). Proof. unfold send_data. wgo. Qed.
#[export] Hint Resolve kd_send_data : kd.
Lemma kd_send_custom a b c s : kd s (fst (send_custom a b c s)). Proof. unfold send_custom. wgo. Qed.
#[export] Hint Resolve kd_send_custom : kd.
