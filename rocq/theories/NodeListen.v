(** What a node remembers about the addresses of its neighbours. *)
From Verif Require Import Base Subnet Route Address NodeTypes NodeConn NodeCore NodeMsg Node
  NodeFrame NodeReset NodeInv NodeKeep NodeSteps NodeCtx NodeReach NodeSpec NodeLog NodeTrace NodeHandle.
Local Open Scope N_scope.
Ltac Zify.zify_post_hook ::= idtac.

(** What is recorded of an endpoint's addresses: none is empty, and the flag tells whether
    there is one that is not a memory channel. *)
Definition lok (d : epd) : Prop := ~ In [] (d_listen d) /\ forall a, In a (d_listen d) -> is_simplex (Some a) = false -> d_lfd d = true.
Definition kl (s s' : node) : Prop := forall e, lok (es s e) -> lok (es s' e).
Lemma kl_refl s : kl s s. Proof. intros e H. exact H. Qed.
Lemma kl_trans s1 s2 s3 : kl s1 s2 -> kl s2 s3 -> kl s1 s3. Proof. intros A B e H. apply B, A, H. Qed.
Lemma kl_intro s s' : es s' = es s -> kl s s'. Proof. intros E e H. now rewrite E. Qed.
Lemma kl_emit t s : kl s (emit t s). Proof. now apply kl_intro. Qed.
Lemma kl_on_c c f s : kl s (on_c c f s). Proof. now apply kl_intro. Qed.
Lemma kl_on_e e f s : (lok (es s e) -> lok (f (es s e))) -> kl s (on_e e f s).
Proof. intros H x L. rewrite es_on_e. destruct (N.eqb_spec x e) as [->|]; auto. Qed.
Lemma kl_set_cs v s : kl s (set_cs v s). Proof. now apply kl_intro. Qed.
Lemma kl_set_nextc v s : kl s (set_nextc v s). Proof. now apply kl_intro. Qed.
Lemma kl_set_nexte v s : kl s (set_nexte v s). Proof. now apply kl_intro. Qed.
Lemma kl_set_self v s : kl s (set_self v s). Proof. now apply kl_intro. Qed.
Lemma kl_set_cf v s : kl s (set_cf v s). Proof. now apply kl_intro. Qed.

Create HintDb kl discriminated.
#[local] Hint Constants Opaque : kl.
#[local] Hint Variables Opaque : kl.
#[local] Hint Resolve kl_emit kl_on_c kl_on_e kl_set_cs kl_set_nextc kl_set_nexte kl_set_self kl_set_cf : kl.
#[local] Hint Extern 1 (lok _ -> lok _) => (let H := fresh in intro H; exact H) : kl.
Ltac omvn H v :=
  lazymatch type of H with
  | kl ?s ?s1 => refine (kl_trans s s1 _ H _); clear H; set (v := s1) in *; clearbody v
  end.
Ltac omv H := let v := fresh "s" in omvn H v.
Ltac oleaf := solve [eauto 3 with kl].
Ltac og1 :=
  cbv beta;
  lazymatch goal with
  | |- kl ?s ?s => apply kl_refl
  | |- kl ?s (fst (let x := ?e in @?b x)) => og_let s e ltac:(fun e' => change (kl s (fst (b e'))))
  | |- kl ?s (let x := ?e in @?b x) => og_let s e ltac:(fun e' => change (kl s (b e')))
  | |- kl ?s (fst (fst (let x := ?e in @?b x))) => og_let s e ltac:(fun e' => change (kl s (fst (fst (b e')))))
  | |- kl ?s (fst (fst (fst (let x := ?e in @?b x)))) => og_let s e ltac:(fun e' => change (kl s (fst (fst (fst (b e'))))))
  | |- kl ?s (fst (fst (fst (match ?x with _ => _ end)))) => og_case s x
  | |- kl ?s (fst (fst (match ?x with _ => _ end))) => og_case s x
  | |- kl ?s (fst (match ?x with _ => _ end)) => og_case s x
  | |- kl ?s (match ?x with _ => _ end) => og_case s x
  | |- kl ?s (fst (fst (fst (?x, ?y)))) => change (kl s (fst (fst x)))
  | |- kl ?s (fst (fst (?x, ?y))) => change (kl s (fst x))
  | |- kl ?s (fst (?x, ?y)) => change (kl s x)
  | |- kl ?s (fst (fst (fst (?h ?t)))) => og_at s t
  | |- kl ?s (fst (fst (?h ?t))) => og_at s t
  | |- kl ?s (fst (?h ?t)) => og_at s t
  | |- kl ?s (?g ?t) => og_at s t
  end
with og_at s t :=
  first [ constr_eq s t; oleaf
        | let H := fresh in assert (H : kl s t) by (repeat og1); omv H; oleaf ]
with og_let s e k :=
  lazymatch type of e with
  | node =>
      first [ constr_eq s e; k s; cbv beta
            | let H := fresh in assert (H : kl s e) by (repeat og1); k e; cbv beta; omv H ]
  | _ => let v := fresh in set (v := e); k v; cbv beta; clearbody v
  end
with og_case s x :=
  lazymatch type of x with
  | (node * _)%type =>
      let H := fresh in assert (H : kl s (fst x)) by (repeat og1);
      let E := fresh "E" in destruct x as [? ?] eqn:E; cbn [fst] in H; clear E; omv H
  | (node * _ * _)%type =>
      let H := fresh in assert (H : kl s (fst (fst x))) by (repeat og1);
      let E := fresh "E" in destruct x as [[? ?] ?] eqn:E; cbn [fst] in H; clear E; omv H
  | (node * _ * _ * _)%type =>
      let H := fresh in assert (H : kl s (fst (fst (fst x)))) by (repeat og1);
      let E := fresh "E" in destruct x as [[[? ?] ?] ?] eqn:E; cbn [fst] in H; clear E; omv H
  | _ => let E := fresh "E" in destruct x eqn:E in |- *
  end.
Ltac ogo := repeat og1.
Ltac oframe := intros; apply kl_intro; first [reflexivity | fr1].
Lemma kl_set_nst v s : kl s (set_nst v s). Proof. now apply kl_intro. Qed.
#[local] Hint Resolve kl_set_nst : kl.
Lemma kl_set_parent v s : kl s (set_parent v s). Proof. now apply kl_intro. Qed.
#[local] Hint Resolve kl_set_parent : kl.
Lemma kl_set_routes v s : kl s (set_routes v s). Proof. now apply kl_intro. Qed.
#[local] Hint Resolve kl_set_routes : kl.
Lemma kl_set_fl_self v s : kl s (set_fl_self v s). Proof. now apply kl_intro. Qed.
#[local] Hint Resolve kl_set_fl_self : kl.
Lemma kl_set_fl_gce v s : kl s (set_fl_gce v s). Proof. now apply kl_intro. Qed.
#[local] Hint Resolve kl_set_fl_gce : kl.
Lemma kl_set_fl_gcc v s : kl s (set_fl_gcc v s). Proof. now apply kl_intro. Qed.
#[local] Hint Resolve kl_set_fl_gcc : kl.
Lemma kl_set_fl_gcreset v s : kl s (set_fl_gcreset v s). Proof. now apply kl_intro. Qed.
#[local] Hint Resolve kl_set_fl_gcreset : kl.
Lemma kl_fold {A} (f : node -> A -> node) : (forall s x, kl s (f s x)) -> forall l s, kl s (fold_left f l s).
Proof. intros F l. induction l as [|x r IH]; intro s; cbn [fold_left]; [apply kl_refl|]. eapply kl_trans; [apply F|apply IH]. Qed.
Lemma kl_set_connecting v s : kl s (set_connecting v s). Proof. now apply kl_intro. Qed.
#[local] Hint Resolve kl_set_connecting : kl.
Lemma kl_set_pings v s : kl s (set_pings v s). Proof. now apply kl_intro. Qed.
#[local] Hint Resolve kl_set_pings : kl.
Lemma kl_set_pend v s : kl s (set_pend v s). Proof. now apply kl_intro. Qed.
#[local] Hint Resolve kl_set_pend : kl.
Lemma kl_set_lpend v s : kl s (set_lpend v s). Proof. now apply kl_intro. Qed.
#[local] Hint Resolve kl_set_lpend : kl.
Lemma kl_set_gce v s : kl s (set_gce v s). Proof. now apply kl_intro. Qed.
#[local] Hint Resolve kl_set_gce : kl.
Lemma kl_set_gcc v s : kl s (set_gcc v s). Proof. now apply kl_intro. Qed.
#[local] Hint Resolve kl_set_gcc : kl.
Lemma kl_set_procs v s : kl s (set_procs v s). Proof. now apply kl_intro. Qed.
#[local] Hint Resolve kl_set_procs : kl.
Lemma kl_set_seqn v s : kl s (set_seqn v s). Proof. now apply kl_intro. Qed.
#[local] Hint Resolve kl_set_seqn : kl.
Lemma kl_set_qdata v s : kl s (set_qdata v s). Proof. now apply kl_intro. Qed.
#[local] Hint Resolve kl_set_qdata : kl.
Lemma kl_set_qcmd v s : kl s (set_qcmd v s). Proof. now apply kl_intro. Qed.
#[local] Hint Resolve kl_set_qcmd : kl.
Lemma kl_set_orc v s : kl s (set_orc v s). Proof. now apply kl_intro. Qed.
#[local] Hint Resolve kl_set_orc : kl.
Lemma kl_set_salts v s : kl s (set_salts v s). Proof. now apply kl_intro. Qed.
#[local] Hint Resolve kl_set_salts : kl.
Lemma kl_set_fl_act v s : kl s (set_fl_act v s). Proof. now apply kl_intro. Qed.
#[local] Hint Resolve kl_set_fl_act : kl.
Lemma kl_set_fl_shut v s : kl s (set_fl_shut v s). Proof. now apply kl_intro. Qed.
#[local] Hint Resolve kl_set_fl_shut : kl.
Lemma kl_set_fl_preg v s : kl s (set_fl_preg v s). Proof. now apply kl_intro. Qed.
#[local] Hint Resolve kl_set_fl_preg : kl.
Lemma kl_set_fl_reset v s : kl s (set_fl_reset v s). Proof. now apply kl_intro. Qed.
#[local] Hint Resolve kl_set_fl_reset : kl.
Lemma kl_set_sec v s : kl s (set_sec v s). Proof. now apply kl_intro. Qed.
#[local] Hint Resolve kl_set_sec : kl.
Lemma kl_rm_timer c s : kl s (rm_timer c s). Proof. unfold rm_timer. ogo. Qed.
#[local] Hint Resolve kl_rm_timer : kl.
Lemma kl_set_status c v s : kl s (set_status c v s). Proof. unfold set_status. ogo. Qed.
#[local] Hint Resolve kl_set_status : kl.
Lemma kl_on_actived s : kl s (on_actived s). Proof. unfold on_actived. ogo. Qed.
#[local] Hint Resolve kl_on_actived : kl.
Lemma kl_shutdown z s : kl s (shutdown z s). Proof. unfold shutdown. ogo. Qed.
#[local] Hint Resolve kl_shutdown : kl.
Lemma kl_fatal_shutdown z s : kl s (fatal_shutdown z s). Proof. apply kl_shutdown. Qed.
#[local] Hint Resolve kl_fatal_shutdown : kl.
Lemma kl_set_popr v s : kl s (set_popr v s). Proof. now apply kl_intro. Qed.
#[local] Hint Resolve kl_set_popr : kl.
Lemma kl_on_disconnect c s : kl s (on_disconnect c s). Proof. unfold on_disconnect. ogo. Qed.
#[local] Hint Resolve kl_on_disconnect : kl.
Lemma kl_rm_proc a s : kl s (rm_proc a s). Proof. unfold rm_proc. ogo. Qed.
#[local] Hint Resolve kl_rm_proc : kl.
Lemma kl_add_proc c s : kl s (add_proc c s). Proof. unfold add_proc. ogo. Qed.
#[local] Hint Resolve kl_add_proc : kl.
Lemma kl_add_timer c s : kl s (add_timer c s). Proof. unfold add_timer. ogo. Qed.
#[local] Hint Resolve kl_add_timer : kl.
Lemma kl_gc_conn c s : kl s (gc_conn c s). Proof. unfold gc_conn. ogo. Qed.
#[local] Hint Resolve kl_gc_conn : kl.
Lemma kl_gc_ep e s : kl s (gc_ep e s). Proof. unfold gc_ep. ogo. Qed.
#[local] Hint Resolve kl_gc_ep : kl.
Lemma kl_clear_ping e s : kl s (clear_ping e s). Proof. unfold clear_ping. ogo. Qed.
#[local] Hint Resolve kl_clear_ping : kl.
Lemma kl_insert_ping e s : kl s (insert_ping e s). Proof. unfold insert_ping. ogo. Qed.
#[local] Hint Resolve kl_insert_ping : kl.
Lemma kl_add_ping e s : kl s (add_ping e s). Proof. unfold add_ping. ogo. Qed.
#[local] Hint Resolve kl_add_ping : kl.
Lemma kl_disconnect c s : kl s (disconnect c s). Proof. unfold disconnect. ogo. Qed.
#[local] Hint Resolve kl_disconnect : kl.
Lemma kl_conn_close c s : kl s (conn_close c s). Proof. unfold conn_close. ogo. Qed.
#[local] Hint Resolve kl_conn_close : kl.
Lemma kl_conn_fin c s : kl s (conn_fin c s). Proof. unfold conn_fin. ogo. Qed.
#[local] Hint Resolve kl_conn_fin : kl.
Lemma kl_conn_reset_in c s : kl s (conn_reset_in c s). Proof. unfold conn_reset_in. ogo. Qed.
#[local] Hint Resolve kl_conn_reset_in : kl.
Lemma kl_resets l s : kl s (fold_left (fun s c => conn_reset_in c s) l s). Proof. apply kl_fold. intros. apply kl_conn_reset_in. Qed.
#[local] Hint Resolve kl_resets : kl.
Lemma kl_ep_reset b g e s : kl s (ep_reset b g e s). 
Proof. intros x H. rewrite es_ep_reset. destruct (_ =? _); [|exact H]. split; [intros []|intros a []]. Qed.
#[local] Hint Resolve kl_ep_reset : kl.
Lemma kl_conn_reset c s : kl s (conn_reset c s). Proof. unfold conn_reset. ogo. Qed.
#[local] Hint Resolve kl_conn_reset : kl.
Lemma kl_ep_drop e s : kl s (ep_drop e s). Proof. unfold ep_drop. ogo. Qed.
#[local] Hint Resolve kl_ep_drop : kl.
Lemma kl_conn_drop c s : kl s (conn_drop c s). Proof. unfold conn_drop. ogo. Qed.
#[local] Hint Resolve kl_conn_drop : kl.
Lemma kl_conn_fault c s : kl s (conn_fault c s). Proof. unfold conn_fault. ogo. Qed.
#[local] Hint Resolve kl_conn_fault : kl.
Lemma kl_add_endpoint e s : kl s (fst (add_endpoint e s)). Proof. unfold add_endpoint. ogo. Qed.
#[local] Hint Resolve kl_add_endpoint : kl.
Lemma kl_remove_endpoint i x s : kl s (fst (remove_endpoint i x s)). Proof. unfold remove_endpoint. ogo. Qed.
#[local] Hint Resolve kl_remove_endpoint : kl.
Lemma kl_ep_fault e s : kl s (fst (ep_fault e s)). Proof. unfold ep_fault. ogo. Qed.
#[local] Hint Resolve kl_ep_fault : kl.
Lemma kl_add_listen e a s : kl s (add_listen e a s). 
Proof.
  unfold add_listen. destruct a as [|x a]; [apply kl_refl|]. apply kl_on_e. intros [A B]. split.
  - cbn. intro I. apply in_app_or in I as [I|[I|[]]]; [|discriminate I]. now apply A.
  - intros b I S. cbn in I. apply in_app_or in I as [I|[<-|[]]].
    + destruct (is_simplex (Some (x :: a))); [now apply (B b)|reflexivity].
    + now rewrite S.
Qed.
#[local] Hint Resolve kl_add_listen : kl.
Lemma kl_written c z n s : kl s (written c z n s). Proof. unfold written. ogo. Qed.
#[local] Hint Resolve kl_written : kl.
Lemma kl_conn_create s : kl s (fst (conn_create s)). Proof. unfold conn_create. ogo. Qed.
#[local] Hint Resolve kl_conn_create : kl.
Lemma kl_ep_create i u p h s : kl s (fst (ep_create i u p h s)). 
Proof.
  unfold ep_create. cbn [fst]. set (s1 := set_nexte _ _). assert (K : kl s s1).
  { intros x H. subst s1. cbn [es set_nexte set_es]. unfold upd. destruct (_ =? _); [|exact H]. split; [intros []|intros b []]. }
  clearbody s1. omv K. ogo.
Qed.
#[local] Hint Resolve kl_ep_create : kl.
Lemma kl_add_connection e c b s : kl s (fst (add_connection e c b s)). Proof. unfold add_connection. ogo. Qed.
#[local] Hint Resolve kl_add_connection : kl.
Lemma kl_created e s : kl s (fst (created e s)). Proof. unfold created. ogo. Qed.
#[local] Hint Resolve kl_created : kl.
Lemma kl_alloc_seq  s : kl s (fst (alloc_seq  s)). Proof. unfold alloc_seq. ogo. Qed.
#[local] Hint Resolve kl_alloc_seq : kl.
Lemma kl_take_orc  s : kl s (fst (take_orc  s)). Proof. unfold take_orc. ogo. Qed.
#[local] Hint Resolve kl_take_orc : kl.
Lemma kl_take_salt  s : kl s (fst (take_salt  s)). Proof. unfold take_salt. ogo. Qed.
#[local] Hint Resolve kl_take_salt : kl.
Lemma kl_push c m s : kl s (fst (push c m s)). Proof. unfold push. ogo. Qed.
#[local] Hint Resolve kl_push : kl.
Lemma kl_send_on c m s : kl s (fst (send_on c m s)). Proof. unfold send_on. ogo. Qed.
#[local] Hint Resolve kl_send_on : kl.

Lemma kl_gen_keys ts : forall s, kl s (fst (gen_keys ts s)).
Proof. induction ts as [|t r IH]; intro s; cbn [gen_keys]; ogo. Qed.
#[local] Hint Resolve kl_gen_keys : kl.
Lemma kl_send_reg rsp c z q s : kl s (fst (send_reg rsp c z q s)). Proof. unfold send_reg. ogo. Qed.
#[local] Hint Resolve kl_send_reg : kl.
Lemma kl_send_ping c q s : kl s (fst (send_ping c q s)). Proof. unfold send_ping. ogo. Qed.
#[local] Hint Resolve kl_send_ping : kl.
Lemma kl_on_new_connection c s : kl s (on_new_connection c s). Proof. unfold on_new_connection. ogo. Qed.
#[local] Hint Resolve kl_on_new_connection : kl.
Lemma kl_number m s : kl s (fst (number m s)). Proof. unfold number. ogo. Qed.
#[local] Hint Resolve kl_number : kl.
Lemma kl_post d i m s : kl s (fst (post d i m s)).
Proof. unfold post. ogo. Qed.
#[local] Hint Resolve kl_post : kl.
Lemma kl_send_cmd_rsp oc d t z q f s : kl s (fst (send_cmd_rsp oc d t z q f s)). Proof. unfold send_cmd_rsp. ogo. Qed.
#[local] Hint Resolve kl_send_cmd_rsp : kl.
Lemma kl_cmd_req oc h q s : kl s (fst (cmd_req oc h q s)). Proof. unfold cmd_req. ogo. Qed.
#[local] Hint Resolve kl_cmd_req : kl.
Lemma kl_cmd_rsp oc h q s : kl s (fst (cmd_rsp oc h q s)). Proof. unfold cmd_rsp. ogo. Qed.
#[local] Hint Resolve kl_cmd_rsp : kl.
Lemma kl_self_data m s : kl s (self_data m s). Proof. unfold self_data. ogo. Qed.
#[local] Hint Resolve kl_self_data : kl.
Lemma kl_self_cmd m s : kl s (self_cmd m s). Proof. unfold self_cmd. ogo. Qed.
#[local] Hint Resolve kl_self_cmd : kl.
Lemma kl_data_loop n : forall s, kl s (fst (fst (self_data_loop n s))).
Proof. induction n as [|n IH]; intro s; cbn [self_data_loop]; ogo. Qed.
Lemma kl_cmd_loop n : forall s, kl s (fst (self_cmd_loop n s)).
Proof. induction n as [|n IH]; intro s; cbn [self_cmd_loop]; ogo. Qed.
#[local] Hint Resolve kl_data_loop kl_cmd_loop : kl.
Lemma kl_dispatch_self s : kl s (fst (dispatch_self s)).
Proof. unfold dispatch_self. ogo. Qed.
#[local] Hint Resolve kl_dispatch_self : kl.
Lemma kl_send_to d i m s : kl s (fst (send_to d i m s)). Proof. unfold send_to. ogo. Qed.
#[local] Hint Resolve kl_send_to : kl.
Lemma kl_conn_connect c a s : kl s (fst (conn_connect c a s)). Proof. unfold conn_connect. ogo. Qed.
#[local] Hint Resolve kl_conn_connect : kl.
Lemma kl_connect a s : kl s (fst (connect a s)). Proof. unfold connect. ogo. Qed.
#[local] Hint Resolve kl_connect : kl.
Lemma kl_connect_ep a e s : kl s (fst (connect_ep a e s)). Proof. unfold connect_ep. ogo. Qed.
#[local] Hint Resolve kl_connect_ep : kl.
Lemma kl_listen_cb c z s : kl s (listen_cb c z s). Proof. unfold listen_cb. ogo. Qed.
#[local] Hint Resolve kl_listen_cb : kl.
Lemma kl_conn_listen c a s : kl s (fst (conn_listen c a s)). Proof. unfold conn_listen. ogo. Qed.
#[local] Hint Resolve kl_conn_listen : kl.
Lemma kl_listen a s : kl s (fst (listen a s)). Proof. unfold listen. ogo. Qed.
#[local] Hint Resolve kl_listen : kl.
Lemma kl_connected_cb c z s : kl s (connected_cb c z s). Proof. unfold connected_cb. ogo. Qed.
#[local] Hint Resolve kl_connected_cb : kl.
Lemma kl_listened c z s : kl s (listened c z s). Proof. unfold listened. ogo. Qed.
#[local] Hint Resolve kl_listened : kl.
Lemma kl_accept_failed s : kl s (accept_failed s). Proof. unfold accept_failed. ogo. Qed.
#[local] Hint Resolve kl_accept_failed : kl.
Lemma kl_accepted a s : kl s (accepted a s). Proof. unfold accepted. ogo. Qed.
#[local] Hint Resolve kl_accepted : kl.
Lemma kl_peer_closed c s : kl s (peer_closed c s). Proof. unfold peer_closed. ogo. Qed.
#[local] Hint Resolve kl_peer_closed : kl.
Lemma kl_node_disconnect i s : kl s (fst (node_disconnect i s)). Proof. unfold node_disconnect. ogo. Qed.
#[local] Hint Resolve kl_node_disconnect : kl.
Lemma kl_transfer_rsp h w z s : kl s (fst (transfer_rsp h w z s)). Proof. unfold transfer_rsp. ogo. Qed.
#[local] Hint Resolve kl_transfer_rsp : kl.
Lemma kl_forward r h w f t s : kl s (fst (fst (fst (forward r h w f t s)))). Proof. unfold forward. ogo. Qed.
#[local] Hint Resolve kl_forward : kl.
Lemma kl_data_rsp c h w s : kl s (fst (data_rsp c h w s)). Proof. unfold data_rsp. ogo. Qed.
#[local] Hint Resolve kl_data_rsp : kl.
Lemma kl_sync_msg r c h s : kl s (fst (sync_msg r c h s)). Proof. unfold sync_msg. ogo. Qed.
#[local] Hint Resolve kl_sync_msg : kl.
Lemma kl_reg_deny c z q s : kl s (fst (reg_deny c z q s)). Proof. unfold reg_deny. ogo. Qed.
#[local] Hint Resolve kl_reg_deny : kl.
Lemma kl_ping_msg c h t s : kl s (fst (ping_msg c h t s)). Proof. unfold ping_msg. ogo. Qed.
#[local] Hint Resolve kl_ping_msg : kl.
Lemma kl_pong_msg c h t s : kl s (fst (pong_msg c h t s)). Proof. unfold pong_msg. ogo. Qed.
#[local] Hint Resolve kl_pong_msg : kl.
Lemma kl_fault_of c s : kl s (fault_of c s). Proof. unfold fault_of. ogo. Qed.
#[local] Hint Resolve kl_fault_of : kl.
Lemma kl_sweep n now : forall s, kl s (sweep n now s).
Proof. induction n as [|n IH]; intro s; cbn [sweep]; ogo. Qed.
#[local] Hint Resolve kl_sweep : kl.
Lemma kl_fault_drop h e s : kl s (fst (fault_drop h e s)). Proof. unfold fault_drop. ogo. Qed.
#[local] Hint Resolve kl_fault_drop : kl.
Lemma kl_ping_endpoint h e s : kl s (fst (ping_endpoint h e s)). Proof. unfold ping_endpoint. ogo. Qed.
#[local] Hint Resolve kl_ping_endpoint : kl.
Lemma kl_idle_out n e s : kl s (fst (idle_out n e s)). Proof. unfold idle_out. ogo. Qed.
#[local] Hint Resolve kl_idle_out : kl.
Lemma kl_release nx s : kl s (release nx s). Proof. unfold release. ogo. Qed.
#[local] Hint Resolve kl_release : kl.
Lemma kl_ping_loop now n : forall nx s s', ping_loop n now nx s = Some s' -> kl s s'.
Proof.
  induction n as [|n IH]; intros nx s s' X; cbn [ping_loop] in X; [discriminate|].
  destruct (pings s) as [|[t e0] l]; [injection X as <-; apply kl_release|].
  destruct (now <? t); [injection X as <-; apply kl_release|]. cbv zeta in X.
  set (e := match nx with Some e => e | None => e0 end) in X.
  pose proof (kl_idle_out now e s) as K. destruct (idle_out now e s) as [s1 out]. cbn [fst] in K. omvn K s2.
  destruct out.
  - apply IH in X. refine (kl_trans _ _ _ _ X). ogo.
  - set (s3 := if match parent s2 with Some p => e_ref p =? e | None => false end then s2 else fst (ping_endpoint true e s2)) in X.
    assert (K : kl s2 s3) by (unfold s3; destruct (match parent s2 with Some p => _ | None => _ end); ogo).
    clearbody s3. omvn K s5.
    set (s4 := add_ping (d_ep (es s5 e)) s5) in X.
    assert (K : kl s5 s4) by (unfold s4; ogo). clearbody s4. omvn K s6.
    destruct (pings s6) as [|[t2 e2] r]; [injection X as <-; ogo|].
    destruct (now <? t2); [injection X as <-; ogo|].
    destruct (negb (t2 =? t)); [|destruct (e2 =? e)]; apply IH in X; refine (kl_trans _ _ _ _ X); ogo.
Qed.
Lemma kl_gc_one s x : kl s (gc_one s x).
Proof. unfold gc_one. ogo. Qed.
Lemma kl_drop_ep s e : kl s (drop_ep s e). Proof. apply kl_ep_drop. Qed.
Lemma kl_gcs l s : kl s (fold_left gc_one l s). Proof. apply kl_fold. intros. apply kl_gc_one. Qed.
Lemma kl_drops l s : kl s (fold_left drop_ep l s). Proof. apply kl_fold. intros. apply kl_drop_ep. Qed.
Lemma kl_cdrops l s : kl s (fold_left (fun s c => conn_drop c s) l s). Proof. apply kl_fold. intros. apply kl_conn_drop. Qed.
#[local] Hint Resolve kl_gcs kl_drops kl_cdrops : kl.
Lemma kl_collect s : kl s (collect s).
Proof. unfold collect. ogo. Qed.
#[local] Hint Resolve kl_collect : kl.
Lemma kl_send_data a b c d e s : kl s (fst (send_data a b c d e s)). Proof. unfold send_data. ogo. Qed.
#[local] Hint Resolve kl_send_data : kl.
Lemma kl_send_custom a b c s : kl s (fst (send_custom a b c s)). Proof. unfold send_custom. ogo. Qed.
#[local] Hint Resolve kl_send_custom : kl.
Lemma kl_connecting m : forall s, kl s (drop_connecting m s).
Proof. induction m as [|m IH]; intro s; cbn [drop_connecting]; [apply kl_refl|]. ogo. Qed.
#[local] Hint Resolve kl_connecting : kl.
Lemma kl_finish_connects l : forall s, kl s (finish_connects l s).
Proof. induction l as [|c r IH]; intro s; cbn [finish_connects]; ogo. Qed.
#[local] Hint Resolve kl_finish_connects : kl.
Lemma kl_finish_listens l : forall s, kl s (finish_listens l s).
Proof. induction l as [|c r IH]; intro s; cbn [finish_listens]; ogo. Qed.
#[local] Hint Resolve kl_finish_listens : kl.
Lemma kl_drain m : forall s, kl s (drain m s).
Proof. induction m as [|m IH]; intro s; cbn [drain]; ogo. Qed.
#[local] Hint Resolve kl_drain : kl.
Lemma kl_presets l s : kl s (fold_left (fun s (p : bytes * N) => conn_reset (snd p) s) l s).
Proof. apply (kl_fold (fun s (p : bytes * N) => conn_reset (snd p) s)). intros. apply kl_conn_reset. Qed.
Lemma kl_removals l s : kl s (fold_left (fun s e => emit (TRemoved e) s) l s).
Proof. apply kl_fold. intros. now apply kl_emit. Qed.
Lemma kl_unpings l s : kl s (fold_left (fun s (p : N * N) => clear_ping (snd p) (ep_reset None false (snd p) s)) l s).
Proof. apply kl_fold. intros. ogo. Qed.
#[local] Hint Resolve kl_presets kl_removals kl_unpings : kl.
Lemma kl_reset s : kl s (reset s). Proof. unfold reset. ogo. Qed.
#[local] Hint Resolve kl_reset : kl.
Lemma kl_stop_if_shut s : kl s (stop_if_shut s). Proof. unfold stop_if_shut. ogo. Qed.
#[local] Hint Resolve kl_stop_if_shut : kl.

Lemma kl_open_channels e can l : forall has s, kl s (fst (open_channels e can l has s)).
Proof. induction l as [|x r IH]; intros has s; cbn [open_channels]; ogo. Qed.
#[local] Hint Resolve kl_open_channels : kl.
Lemma kl_welcome c e r s : kl s (welcome c e r s). Proof. unfold welcome. ogo. Qed.
#[local] Hint Resolve kl_welcome : kl.
Lemma kl_reg_body c r s : kl s (fst (reg_body c r s)). Proof. unfold reg_body. ogo. Qed.
#[local] Hint Resolve kl_reg_body : kl.
Lemma kl_reg_req c h r s : kl s (fst (reg_req c h r s)). Proof. unfold reg_req. ogo. Qed.
#[local] Hint Resolve kl_reg_req : kl.
Lemma kl_reg_rsp c h r s : kl s (fst (reg_rsp c h r s)).
Proof. unfold reg_rsp, parent_reg_done. ogo. Qed.
#[local] Hint Resolve kl_reg_rsp : kl.
Lemma kl_conn_syn c h a s : kl s (fst (conn_syn c h a s)). Proof. unfold conn_syn. ogo. Qed.
#[local] Hint Resolve kl_conn_syn : kl.

Lemma kl_connect_sync x y s : kl s (fst (connect_sync x y s)). Proof. unfold connect_sync. ogo. Qed.
#[local] Hint Resolve kl_connect_sync : kl.
Lemma kl_data_req c h w s : kl s (fst (data_req c h w s)). Proof. unfold data_req. ogo. Qed.
#[local] Hint Resolve kl_data_req : kl.
Lemma kl_dispatch_msg c m s : kl s (fst (dispatch_msg c m s)).
Proof. unfold dispatch_msg. ogo. Qed.
#[local] Hint Resolve kl_dispatch_msg : kl.
Lemma kl_on_recv c m s : kl s (on_recv c m s). Proof. unfold on_recv. ogo. Qed.
#[local] Hint Resolve kl_on_recv : kl.
Lemma kl_recv_item c i s : kl s (recv_item c i s).
Proof. unfold recv_item. destruct i as [z|k|k m]; ogo. Qed.
#[local] Hint Resolve kl_recv_item : kl.
Lemma kl_io_step i s : kl s (io_step i s). Proof. unfold io_step. ogo. Qed.
#[local] Hint Resolve kl_io_step : kl.
Lemma kl_ios l s : kl s (fold_left (fun s i => io_step i s) l s). Proof. apply kl_fold. intros. apply kl_io_step. Qed.
Lemma kl_proc_items m c : forall l s, kl s (proc_items m c l s).
Proof. induction m as [|m IH]; intros l s; cbn [proc_items]; [apply kl_refl|]. destruct (k_kind _); try apply kl_recv_item. destruct l as [|i r]; [apply kl_refl|]. destruct i; ogo. Qed.
#[local] Hint Resolve kl_ios kl_proc_items : kl.
Lemma kl_proc_one s p : kl s (proc_one s p). Proof. unfold proc_one. ogo. Qed.
Lemma kl_procs l s : kl s (fold_left proc_one l s). Proof. apply kl_fold. intros. apply kl_proc_one. Qed.
#[local] Hint Resolve kl_procs : kl.
Lemma kl_parent_op now s : kl s (parent_op now s). Proof. unfold parent_op. ogo. Qed.
#[local] Hint Resolve kl_parent_op : kl.
Lemma kl_start now s : kl s (fst (start now s)). Proof. unfold start. ogo. Qed.
Lemma kl_init i x s : kl s (fst (init i x s)). Proof. unfold init. ogo. Qed.
Lemma kl_poll l s : kl s (poll l s). Proof. unfold poll. ogo. Qed.
Lemma kl_proc k now feed s s' : proc k now feed s = Some s' -> kl s s'.
Proof.
  unfold proc. cbv zeta. set (s1 := if sec s <? now then set_sec now s else s).
  assert (K : kl s s1) by (subst s1; ogo). intro X.
  refine (kl_trans _ _ _ K _). clearbody s1. clear K. rename s1 into s2. revert X.
  set (s3 := parent_op now _). assert (K : kl s2 s3) by (subst s3; ogo). clearbody s3.
  assert (Y : forall s5, ping_loop k now None s3 = Some s5 -> kl s2 (stop_if_shut (collect (fst (dispatch_self s5))))).
  { intros s5 E. apply kl_ping_loop in E. omvn K s4. omvn E s6. ogo. }
  assert (Z : kl s2 (reset (fst (dispatch_self s2)))) by ogo.
  destruct (nst s2); [intros [= <-]; apply kl_refl|..];
    (destruct (fl_shut s2); [intros [= <-]; exact Z|]; destruct (ping_loop k now None s3) as [s5|]; [|discriminate]; intros [= <-]; auto).
Qed.
Lemma kl_step k ev s s' : step k ev s = Some s' -> kl s s'.
Proof.
  unfold step, step_ret.
  destruct ev as [i x|now|a|a|a i|i|to ty b w q|to l q|z| |now feed|l|i|o l]; cbn [option_map fst];
    try (intros [= <-]; solve [ogo | apply kl_set_salts]).
  - intros [= <-]. apply kl_init.
  - intros [= <-]. apply kl_start.
  - destruct (proc k now feed s) as [s1|] eqn:E; [|discriminate]. intros [= <-]. eapply kl_proc; eauto.
  - intros [= <-]. apply kl_poll.
Qed.
Theorem reachable_listen s : reachable s -> forall e, lok (es s e).
Proof.
  intros (k & evs & R). cut (forall evs s0, run k evs s0 = Some s -> kl s0 s).
  - intros H e. apply (H evs new_node R e). split; [intros []|intros a []].
  - clear R evs. induction evs as [|ev r IH]; intros s0 R; cbn [run] in R; [injection R as <-; apply kl_refl|].
    destruct (step k ev s0) as [s1|] eqn:S; [|discriminate]. eapply kl_trans; [eapply kl_step; eauto|now apply IH].
Qed.
