(** When a node recommends one neighbour to another. *)
From Verif Require Import Base Subnet Route Address NodeTypes NodeConn NodeCore NodeMsg Node
  NodeFrame NodeReset NodeInv NodeKeep NodeSteps NodeCtx NodeReach NodeSpec NodeLog NodeTrace NodeHandle.
Local Open Scope N_scope.
Ltac Zify.zify_post_hook ::= idtac.

Definition is_sync (m : msg) : bool := match m_body m with BConn _ => true | _ => false end.
Definition plain (t : tr) : Prop := match t with TSend _ m _ _ => is_sync m = false | _ => True end.
Section Sync.
(** [Q] holds of every entry that is not such a recommendation. *)
Variable Q : tr -> Prop.
Variable HQ : forall t, plain t -> Q t.
Definition ks (s s' : node) : Prop := adds Q s s'.
Lemma ks_refl s : ks s s. Proof. apply adds_refl. Qed.
Lemma ks_trans s1 s2 s3 : ks s1 s2 -> ks s2 s3 -> ks s1 s3. Proof. apply adds_trans. Qed.
Lemma ks_intro s s' : log s' = log s -> ks s s'. Proof. apply adds_same. Qed.
Lemma ks_emit t s : plain t -> ks s (emit t s). Proof. intro. apply adds_emit. now apply HQ. Qed.
Lemma ks_on_c c f s : ks s (on_c c f s). Proof. now apply ks_intro. Qed.
Lemma ks_on_e e f s : ks s (on_e e f s). Proof. now apply ks_intro. Qed.
Lemma ks_set_cs v s : ks s (set_cs v s). Proof. now apply ks_intro. Qed.
Lemma ks_set_es v s : ks s (set_es v s). Proof. now apply ks_intro. Qed.
Lemma ks_set_nextc v s : ks s (set_nextc v s). Proof. now apply ks_intro. Qed.
Lemma ks_set_nexte v s : ks s (set_nexte v s). Proof. now apply ks_intro. Qed.
Lemma ks_set_self v s : ks s (set_self v s). Proof. now apply ks_intro. Qed.
Lemma ks_set_cf v s : ks s (set_cf v s). Proof. now apply ks_intro. Qed.

Create HintDb ks discriminated.
#[local] Hint Constants Opaque : ks.
#[local] Hint Variables Opaque : ks.
#[local] Hint Resolve ks_emit ks_on_c ks_on_e ks_set_cs ks_set_es ks_set_nextc ks_set_nexte ks_set_self ks_set_cf : ks.
#[local] Hint Extern 1 (plain _) => first [exact Logic.I | reflexivity | assumption] : ks.
#[local] Hint Extern 1 (is_sync _ = false) => first [reflexivity | assumption] : ks.
Ltac omvn H v :=
  lazymatch type of H with
  | ks ?s ?s1 => refine (ks_trans s s1 _ H _); clear H; set (v := s1) in *; clearbody v
  end.
Ltac omv H := let v := fresh "s" in omvn H v.
Ltac oleaf := solve [eauto 3 with ks].
Ltac og1 :=
  cbv beta;
  lazymatch goal with
  | |- ks ?s ?s => apply ks_refl
  | |- ks ?s (fst (let x := ?e in @?b x)) => og_let s e ltac:(fun e' => change (ks s (fst (b e'))))
  | |- ks ?s (let x := ?e in @?b x) => og_let s e ltac:(fun e' => change (ks s (b e')))
  | |- ks ?s (fst (fst (let x := ?e in @?b x))) => og_let s e ltac:(fun e' => change (ks s (fst (fst (b e')))))
  | |- ks ?s (fst (fst (fst (let x := ?e in @?b x)))) => og_let s e ltac:(fun e' => change (ks s (fst (fst (fst (b e'))))))
  | |- ks ?s (fst (fst (fst (match ?x with _ => _ end)))) => og_case s x
  | |- ks ?s (fst (fst (match ?x with _ => _ end))) => og_case s x
  | |- ks ?s (fst (match ?x with _ => _ end)) => og_case s x
  | |- ks ?s (match ?x with _ => _ end) => og_case s x
  | |- ks ?s (fst (fst (fst (?x, ?y)))) => change (ks s (fst (fst x)))
  | |- ks ?s (fst (fst (?x, ?y))) => change (ks s (fst x))
  | |- ks ?s (fst (?x, ?y)) => change (ks s x)
  | |- ks ?s (fst (fst (fst (?h ?t)))) => og_at s t
  | |- ks ?s (fst (fst (?h ?t))) => og_at s t
  | |- ks ?s (fst (?h ?t)) => og_at s t
  | |- ks ?s (?g ?t) => og_at s t
  end
with og_at s t :=
  first [ constr_eq s t; oleaf
        | let H := fresh in assert (H : ks s t) by (repeat og1); omv H; oleaf ]
with og_let s e k :=
  lazymatch type of e with
  | node =>
      first [ constr_eq s e; k s; cbv beta
            | let H := fresh in assert (H : ks s e) by (repeat og1); k e; cbv beta; omv H ]
  | _ => let v := fresh in set (v := e); k v; cbv beta; clearbody v
  end
with og_case s x :=
  lazymatch type of x with
  | (node * _)%type =>
      let H := fresh in assert (H : ks s (fst x)) by (repeat og1);
      let E := fresh "E" in destruct x as [? ?] eqn:E; cbn [fst] in H; clear E; omv H
  | (node * _ * _)%type =>
      let H := fresh in assert (H : ks s (fst (fst x))) by (repeat og1);
      let E := fresh "E" in destruct x as [[? ?] ?] eqn:E; cbn [fst] in H; clear E; omv H
  | (node * _ * _ * _)%type =>
      let H := fresh in assert (H : ks s (fst (fst (fst x)))) by (repeat og1);
      let E := fresh "E" in destruct x as [[[? ?] ?] ?] eqn:E; cbn [fst] in H; clear E; omv H
  | _ => let E := fresh "E" in destruct x eqn:E in |- *
  end.
Ltac ogo := repeat og1.
Ltac oframe := intros; apply ks_intro; first [reflexivity | fr1].
Lemma ks_set_nst v s : ks s (set_nst v s). Proof. now apply ks_intro. Qed.
#[local] Hint Resolve ks_set_nst : ks.
Lemma ks_set_parent v s : ks s (set_parent v s). Proof. now apply ks_intro. Qed.
#[local] Hint Resolve ks_set_parent : ks.
Lemma ks_set_routes v s : ks s (set_routes v s). Proof. now apply ks_intro. Qed.
#[local] Hint Resolve ks_set_routes : ks.
Lemma ks_set_fl_self v s : ks s (set_fl_self v s). Proof. now apply ks_intro. Qed.
#[local] Hint Resolve ks_set_fl_self : ks.
Lemma ks_set_fl_gce v s : ks s (set_fl_gce v s). Proof. now apply ks_intro. Qed.
#[local] Hint Resolve ks_set_fl_gce : ks.
Lemma ks_set_fl_gcc v s : ks s (set_fl_gcc v s). Proof. now apply ks_intro. Qed.
#[local] Hint Resolve ks_set_fl_gcc : ks.
Lemma ks_set_fl_gcreset v s : ks s (set_fl_gcreset v s). Proof. now apply ks_intro. Qed.
#[local] Hint Resolve ks_set_fl_gcreset : ks.
Lemma ks_fold {A} (f : node -> A -> node) : (forall s x, ks s (f s x)) -> forall l s, ks s (fold_left f l s).
Proof. intros F l. induction l as [|x r IH]; intro s; cbn [fold_left]; [apply ks_refl|]. eapply ks_trans; [apply F|apply IH]. Qed.
Lemma ks_set_connecting v s : ks s (set_connecting v s). Proof. now apply ks_intro. Qed.
#[local] Hint Resolve ks_set_connecting : ks.
Lemma ks_set_pings v s : ks s (set_pings v s). Proof. now apply ks_intro. Qed.
#[local] Hint Resolve ks_set_pings : ks.
Lemma ks_set_pend v s : ks s (set_pend v s). Proof. now apply ks_intro. Qed.
#[local] Hint Resolve ks_set_pend : ks.
Lemma ks_set_lpend v s : ks s (set_lpend v s). Proof. now apply ks_intro. Qed.
#[local] Hint Resolve ks_set_lpend : ks.
Lemma ks_set_gce v s : ks s (set_gce v s). Proof. now apply ks_intro. Qed.
#[local] Hint Resolve ks_set_gce : ks.
Lemma ks_set_gcc v s : ks s (set_gcc v s). Proof. now apply ks_intro. Qed.
#[local] Hint Resolve ks_set_gcc : ks.
Lemma ks_set_procs v s : ks s (set_procs v s). Proof. now apply ks_intro. Qed.
#[local] Hint Resolve ks_set_procs : ks.
Lemma ks_set_seqn v s : ks s (set_seqn v s). Proof. now apply ks_intro. Qed.
#[local] Hint Resolve ks_set_seqn : ks.
Lemma ks_set_qdata v s : ks s (set_qdata v s). Proof. now apply ks_intro. Qed.
#[local] Hint Resolve ks_set_qdata : ks.
Lemma ks_set_qcmd v s : ks s (set_qcmd v s). Proof. now apply ks_intro. Qed.
#[local] Hint Resolve ks_set_qcmd : ks.
Lemma ks_set_orc v s : ks s (set_orc v s). Proof. now apply ks_intro. Qed.
#[local] Hint Resolve ks_set_orc : ks.
Lemma ks_set_salts v s : ks s (set_salts v s). Proof. now apply ks_intro. Qed.
#[local] Hint Resolve ks_set_salts : ks.
Lemma ks_set_fl_act v s : ks s (set_fl_act v s). Proof. now apply ks_intro. Qed.
#[local] Hint Resolve ks_set_fl_act : ks.
Lemma ks_set_fl_shut v s : ks s (set_fl_shut v s). Proof. now apply ks_intro. Qed.
#[local] Hint Resolve ks_set_fl_shut : ks.
Lemma ks_set_fl_preg v s : ks s (set_fl_preg v s). Proof. now apply ks_intro. Qed.
#[local] Hint Resolve ks_set_fl_preg : ks.
Lemma ks_set_fl_reset v s : ks s (set_fl_reset v s). Proof. now apply ks_intro. Qed.
#[local] Hint Resolve ks_set_fl_reset : ks.
Lemma ks_set_sec v s : ks s (set_sec v s). Proof. now apply ks_intro. Qed.
#[local] Hint Resolve ks_set_sec : ks.
Lemma ks_rm_timer c s : ks s (rm_timer c s). Proof. unfold rm_timer. ogo. Qed.
#[local] Hint Resolve ks_rm_timer : ks.
Lemma ks_set_status c v s : ks s (set_status c v s). Proof. unfold set_status. ogo. Qed.
#[local] Hint Resolve ks_set_status : ks.
Lemma ks_on_actived s : ks s (on_actived s). Proof. unfold on_actived. ogo. Qed.
#[local] Hint Resolve ks_on_actived : ks.
Lemma ks_shutdown z s : ks s (shutdown z s). Proof. unfold shutdown. ogo. Qed.
#[local] Hint Resolve ks_shutdown : ks.
Lemma ks_fatal_shutdown z s : ks s (fatal_shutdown z s). Proof. apply ks_shutdown. Qed.
#[local] Hint Resolve ks_fatal_shutdown : ks.
Lemma ks_set_popr v s : ks s (set_popr v s). Proof. now apply ks_intro. Qed.
#[local] Hint Resolve ks_set_popr : ks.
Lemma ks_on_disconnect c s : ks s (on_disconnect c s). Proof. unfold on_disconnect. ogo. Qed.
#[local] Hint Resolve ks_on_disconnect : ks.
Lemma ks_rm_proc a s : ks s (rm_proc a s). Proof. unfold rm_proc. ogo. Qed.
#[local] Hint Resolve ks_rm_proc : ks.
Lemma ks_add_proc c s : ks s (add_proc c s). Proof. unfold add_proc. ogo. Qed.
#[local] Hint Resolve ks_add_proc : ks.
Lemma ks_add_timer c s : ks s (add_timer c s). Proof. unfold add_timer. ogo. Qed.
#[local] Hint Resolve ks_add_timer : ks.
Lemma ks_gc_conn c s : ks s (gc_conn c s). Proof. unfold gc_conn. ogo. Qed.
#[local] Hint Resolve ks_gc_conn : ks.
Lemma ks_gc_ep e s : ks s (gc_ep e s). Proof. unfold gc_ep. ogo. Qed.
#[local] Hint Resolve ks_gc_ep : ks.
Lemma ks_clear_ping e s : ks s (clear_ping e s). Proof. unfold clear_ping. ogo. Qed.
#[local] Hint Resolve ks_clear_ping : ks.
Lemma ks_insert_ping e s : ks s (insert_ping e s). Proof. unfold insert_ping. ogo. Qed.
#[local] Hint Resolve ks_insert_ping : ks.
Lemma ks_add_ping e s : ks s (add_ping e s). Proof. unfold add_ping. ogo. Qed.
#[local] Hint Resolve ks_add_ping : ks.
Lemma ks_disconnect c s : ks s (disconnect c s). Proof. unfold disconnect. ogo. Qed.
#[local] Hint Resolve ks_disconnect : ks.
Lemma ks_conn_close c s : ks s (conn_close c s). Proof. unfold conn_close. ogo. Qed.
#[local] Hint Resolve ks_conn_close : ks.
Lemma ks_conn_fin c s : ks s (conn_fin c s). Proof. unfold conn_fin. ogo. Qed.
#[local] Hint Resolve ks_conn_fin : ks.
Lemma ks_conn_reset_in c s : ks s (conn_reset_in c s). Proof. unfold conn_reset_in. ogo. Qed.
#[local] Hint Resolve ks_conn_reset_in : ks.
Lemma ks_resets l s : ks s (fold_left (fun s c => conn_reset_in c s) l s). Proof. apply ks_fold. intros. apply ks_conn_reset_in. Qed.
#[local] Hint Resolve ks_resets : ks.
Lemma ks_ep_reset b g e s : ks s (ep_reset b g e s). Proof. unfold ep_reset. ogo. Qed.
#[local] Hint Resolve ks_ep_reset : ks.
Lemma ks_conn_reset c s : ks s (conn_reset c s). Proof. unfold conn_reset. ogo. Qed.
#[local] Hint Resolve ks_conn_reset : ks.
Lemma ks_ep_drop e s : ks s (ep_drop e s). Proof. unfold ep_drop. ogo. Qed.
#[local] Hint Resolve ks_ep_drop : ks.
Lemma ks_conn_drop c s : ks s (conn_drop c s). Proof. unfold conn_drop. ogo. Qed.
#[local] Hint Resolve ks_conn_drop : ks.
Lemma ks_conn_fault c s : ks s (conn_fault c s). Proof. unfold conn_fault. ogo. Qed.
#[local] Hint Resolve ks_conn_fault : ks.
Lemma ks_add_endpoint e s : ks s (fst (add_endpoint e s)). Proof. unfold add_endpoint. ogo. Qed.
#[local] Hint Resolve ks_add_endpoint : ks.
Lemma ks_remove_endpoint i x s : ks s (fst (remove_endpoint i x s)). Proof. unfold remove_endpoint. ogo. Qed.
#[local] Hint Resolve ks_remove_endpoint : ks.
Lemma ks_ep_fault e s : ks s (fst (ep_fault e s)). Proof. unfold ep_fault. ogo. Qed.
#[local] Hint Resolve ks_ep_fault : ks.
Lemma ks_add_listen e a s : ks s (add_listen e a s). Proof. unfold add_listen. ogo. Qed.
#[local] Hint Resolve ks_add_listen : ks.
Lemma ks_written c z n s : ks s (written c z n s). Proof. unfold written. ogo. Qed.
#[local] Hint Resolve ks_written : ks.
Lemma ks_conn_create s : ks s (fst (conn_create s)). Proof. unfold conn_create. ogo. Qed.
#[local] Hint Resolve ks_conn_create : ks.
Lemma ks_ep_create i u p h s : ks s (fst (ep_create i u p h s)). Proof. unfold ep_create. ogo. Qed.
#[local] Hint Resolve ks_ep_create : ks.
Lemma ks_add_connection e c b s : ks s (fst (add_connection e c b s)). Proof. unfold add_connection. ogo. Qed.
#[local] Hint Resolve ks_add_connection : ks.
Lemma ks_created e s : ks s (fst (created e s)). Proof. unfold created. ogo. Qed.
#[local] Hint Resolve ks_created : ks.
Lemma ks_alloc_seq  s : ks s (fst (alloc_seq  s)). Proof. unfold alloc_seq. ogo. Qed.
#[local] Hint Resolve ks_alloc_seq : ks.
Lemma ks_take_orc  s : ks s (fst (take_orc  s)). Proof. unfold take_orc. ogo. Qed.
#[local] Hint Resolve ks_take_orc : ks.
Lemma ks_take_salt  s : ks s (fst (take_salt  s)). Proof. unfold take_salt. ogo. Qed.
#[local] Hint Resolve ks_take_salt : ks.
Lemma ks_push c m s : is_sync m = false -> ks s (fst (push c m s)). Proof. intro H. unfold push. ogo. Qed.
#[local] Hint Resolve ks_push : ks.
Lemma ks_send_on c m s : is_sync m = false -> ks s (fst (send_on c m s)). Proof. intro H. unfold send_on. ogo. Qed.
#[local] Hint Resolve ks_send_on : ks.

Lemma ks_gen_keys ts : forall s, ks s (fst (gen_keys ts s)).
Proof. induction ts as [|t r IH]; intro s; cbn [gen_keys]; ogo. Qed.
#[local] Hint Resolve ks_gen_keys : ks.
Lemma ks_send_reg rsp c z q s : ks s (fst (send_reg rsp c z q s)). Proof. unfold send_reg. ogo. Qed.
#[local] Hint Resolve ks_send_reg : ks.
Lemma ks_send_ping c q s : ks s (fst (send_ping c q s)). Proof. unfold send_ping. ogo. Qed.
#[local] Hint Resolve ks_send_ping : ks.
Lemma ks_on_new_connection c s : ks s (on_new_connection c s). Proof. unfold on_new_connection. ogo. Qed.
#[local] Hint Resolve ks_on_new_connection : ks.
Lemma ks_number m s : ks s (fst (number m s)). Proof. unfold number. ogo. Qed.
Lemma sync_number m s : is_sync (snd (number m s)) = is_sync m. Proof. unfold number. now destruct (_ =? 0). Qed.
#[local] Hint Resolve ks_number : ks.
Lemma ks_post d i m s : is_sync m = false -> ks s (fst (post d i m s)).
Proof.
  intro H. unfold post. pose proof (ks_number m s) as K. pose proof (sync_number m s) as E. rewrite H in E.
  destruct (number m s) as [s1 m1]. cbn [fst snd] in *.
  destruct (nst s); try apply ks_refl; (destruct (_ =? _);
    [omvn K s2; ogo|destruct (remote d s i) as [[r oe] oc]; destruct (r <? 0)%Z; [apply ks_refl|]; destruct oc; [|apply ks_refl]; omvn K s2; ogo]).
Qed.
#[local] Hint Resolve ks_post : ks.
Lemma ks_send_cmd_rsp oc d t z q f s : ks s (fst (send_cmd_rsp oc d t z q f s)). Proof. unfold send_cmd_rsp. ogo. Qed.
#[local] Hint Resolve ks_send_cmd_rsp : ks.
Lemma ks_cmd_req oc h q s : ks s (fst (cmd_req oc h q s)). Proof. unfold cmd_req. ogo. Qed.
#[local] Hint Resolve ks_cmd_req : ks.
Lemma ks_cmd_rsp oc h q s : ks s (fst (cmd_rsp oc h q s)). Proof. unfold cmd_rsp. ogo. Qed.
#[local] Hint Resolve ks_cmd_rsp : ks.
Lemma ks_self_data m s : ks s (self_data m s). Proof. unfold self_data. ogo. Qed.
#[local] Hint Resolve ks_self_data : ks.
Lemma ks_self_cmd m s : ks s (self_cmd m s). Proof. unfold self_cmd. ogo. Qed.
#[local] Hint Resolve ks_self_cmd : ks.
Lemma ks_data_loop n : forall s, ks s (fst (fst (self_data_loop n s))).
Proof. induction n as [|n IH]; intro s; cbn [self_data_loop]; ogo. Qed.
Lemma ks_cmd_loop n : forall s, ks s (fst (self_cmd_loop n s)).
Proof. induction n as [|n IH]; intro s; cbn [self_cmd_loop]; ogo. Qed.
#[local] Hint Resolve ks_data_loop ks_cmd_loop : ks.
Lemma ks_dispatch_self s : ks s (fst (dispatch_self s)).
Proof. unfold dispatch_self. ogo. Qed.
#[local] Hint Resolve ks_dispatch_self : ks.
Lemma ks_send_to d i m s : is_sync m = false -> ks s (fst (send_to d i m s)). Proof. intro H. unfold send_to. ogo. Qed.
#[local] Hint Resolve ks_send_to : ks.
Lemma ks_conn_connect c a s : ks s (fst (conn_connect c a s)). Proof. unfold conn_connect. ogo. Qed.
#[local] Hint Resolve ks_conn_connect : ks.
Lemma ks_connect a s : ks s (fst (connect a s)). Proof. unfold connect. ogo. Qed.
#[local] Hint Resolve ks_connect : ks.
Lemma ks_connect_ep a e s : ks s (fst (connect_ep a e s)). Proof. unfold connect_ep. ogo. Qed.
#[local] Hint Resolve ks_connect_ep : ks.
Lemma ks_listen_cb c z s : ks s (listen_cb c z s). Proof. unfold listen_cb. ogo. Qed.
#[local] Hint Resolve ks_listen_cb : ks.
Lemma ks_conn_listen c a s : ks s (fst (conn_listen c a s)). Proof. unfold conn_listen. ogo. Qed.
#[local] Hint Resolve ks_conn_listen : ks.
Lemma ks_listen a s : ks s (fst (listen a s)). Proof. unfold listen. ogo. Qed.
#[local] Hint Resolve ks_listen : ks.
Lemma ks_connected_cb c z s : ks s (connected_cb c z s). Proof. unfold connected_cb. ogo. Qed.
#[local] Hint Resolve ks_connected_cb : ks.
Lemma ks_listened c z s : ks s (listened c z s). Proof. unfold listened. ogo. Qed.
#[local] Hint Resolve ks_listened : ks.
Lemma ks_accept_failed s : ks s (accept_failed s). Proof. unfold accept_failed. ogo. Qed.
#[local] Hint Resolve ks_accept_failed : ks.
Lemma ks_accepted a s : ks s (accepted a s). Proof. unfold accepted. ogo. Qed.
#[local] Hint Resolve ks_accepted : ks.
Lemma ks_peer_closed c s : ks s (peer_closed c s). Proof. unfold peer_closed. ogo. Qed.
#[local] Hint Resolve ks_peer_closed : ks.
Lemma ks_node_disconnect i s : ks s (fst (node_disconnect i s)). Proof. unfold node_disconnect. ogo. Qed.
#[local] Hint Resolve ks_node_disconnect : ks.
Lemma ks_transfer_rsp h w z s : ks s (fst (transfer_rsp h w z s)). Proof. unfold transfer_rsp. ogo. Qed.
#[local] Hint Resolve ks_transfer_rsp : ks.
Lemma ks_forward r h w f t s : ks s (fst (fst (fst (forward r h w f t s)))). Proof. unfold forward. ogo. Qed.
#[local] Hint Resolve ks_forward : ks.
Lemma ks_data_rsp c h w s : ks s (fst (data_rsp c h w s)). Proof. unfold data_rsp. ogo. Qed.
#[local] Hint Resolve ks_data_rsp : ks.
Lemma ks_sync_msg r c h s : ks s (fst (sync_msg r c h s)). Proof. unfold sync_msg. ogo. Qed.
#[local] Hint Resolve ks_sync_msg : ks.
Lemma ks_reg_deny c z q s : ks s (fst (reg_deny c z q s)). Proof. unfold reg_deny. ogo. Qed.
#[local] Hint Resolve ks_reg_deny : ks.
Lemma ks_ping_msg c h t s : ks s (fst (ping_msg c h t s)). Proof. unfold ping_msg. ogo. Qed.
#[local] Hint Resolve ks_ping_msg : ks.
Lemma ks_pong_msg c h t s : ks s (fst (pong_msg c h t s)). Proof. unfold pong_msg. ogo. Qed.
#[local] Hint Resolve ks_pong_msg : ks.
Lemma ks_fault_of c s : ks s (fault_of c s). Proof. unfold fault_of. ogo. Qed.
#[local] Hint Resolve ks_fault_of : ks.
Lemma ks_sweep n now : forall s, ks s (sweep n now s).
Proof. induction n as [|n IH]; intro s; cbn [sweep]; ogo. Qed.
#[local] Hint Resolve ks_sweep : ks.
Lemma ks_fault_drop h e s : ks s (fst (fault_drop h e s)). Proof. unfold fault_drop. ogo. Qed.
#[local] Hint Resolve ks_fault_drop : ks.
Lemma ks_ping_endpoint h e s : ks s (fst (ping_endpoint h e s)). Proof. unfold ping_endpoint. ogo. Qed.
#[local] Hint Resolve ks_ping_endpoint : ks.
Lemma ks_idle_out n e s : ks s (fst (idle_out n e s)). Proof. unfold idle_out. ogo. Qed.
#[local] Hint Resolve ks_idle_out : ks.
Lemma ks_release nx s : ks s (release nx s). Proof. unfold release. ogo. Qed.
#[local] Hint Resolve ks_release : ks.
Lemma ks_ping_loop now n : forall nx s s', ping_loop n now nx s = Some s' -> ks s s'.
Proof.
  induction n as [|n IH]; intros nx s s' X; cbn [ping_loop] in X; [discriminate|].
  destruct (pings s) as [|[t e0] l]; [injection X as <-; apply ks_release|].
  destruct (now <? t); [injection X as <-; apply ks_release|]. cbv zeta in X.
  set (e := match nx with Some e => e | None => e0 end) in X.
  pose proof (ks_idle_out now e s) as K. destruct (idle_out now e s) as [s1 out]. cbn [fst] in K. omvn K s2.
  destruct out.
  - apply IH in X. refine (ks_trans _ _ _ _ X). ogo.
  - set (s3 := if match parent s2 with Some p => e_ref p =? e | None => false end then s2 else fst (ping_endpoint true e s2)) in X.
    assert (K : ks s2 s3) by (unfold s3; destruct (match parent s2 with Some p => _ | None => _ end); ogo).
    clearbody s3. omvn K s5.
    set (s4 := add_ping (d_ep (es s5 e)) s5) in X.
    assert (K : ks s5 s4) by (unfold s4; ogo). clearbody s4. omvn K s6.
    destruct (pings s6) as [|[t2 e2] r]; [injection X as <-; ogo|].
    destruct (now <? t2); [injection X as <-; ogo|].
    destruct (negb (t2 =? t)); [|destruct (e2 =? e)]; apply IH in X; refine (ks_trans _ _ _ _ X); ogo.
Qed.
Lemma ks_gc_one s x : ks s (gc_one s x).
Proof. unfold gc_one. ogo. Qed.
Lemma ks_drop_ep s e : ks s (drop_ep s e). Proof. apply ks_ep_drop. Qed.
Lemma ks_gcs l s : ks s (fold_left gc_one l s). Proof. apply ks_fold. intros. apply ks_gc_one. Qed.
Lemma ks_drops l s : ks s (fold_left drop_ep l s). Proof. apply ks_fold. intros. apply ks_drop_ep. Qed.
Lemma ks_cdrops l s : ks s (fold_left (fun s c => conn_drop c s) l s). Proof. apply ks_fold. intros. apply ks_conn_drop. Qed.
#[local] Hint Resolve ks_gcs ks_drops ks_cdrops : ks.
Lemma ks_collect s : ks s (collect s).
Proof. unfold collect. ogo. Qed.
#[local] Hint Resolve ks_collect : ks.
Lemma ks_send_data a b c d e s : ks s (fst (send_data a b c d e s)). Proof. unfold send_data. ogo. Qed.
#[local] Hint Resolve ks_send_data : ks.
Lemma ks_send_custom a b c s : ks s (fst (send_custom a b c s)). Proof. unfold send_custom. ogo. Qed.
#[local] Hint Resolve ks_send_custom : ks.
Lemma ks_connecting m : forall s, ks s (drop_connecting m s).
Proof. induction m as [|m IH]; intro s; cbn [drop_connecting]; [apply ks_refl|]. ogo. Qed.
#[local] Hint Resolve ks_connecting : ks.
Lemma ks_finish_connects l : forall s, ks s (finish_connects l s).
Proof. induction l as [|c r IH]; intro s; cbn [finish_connects]; ogo. Qed.
#[local] Hint Resolve ks_finish_connects : ks.
Lemma ks_finish_listens l : forall s, ks s (finish_listens l s).
Proof. induction l as [|c r IH]; intro s; cbn [finish_listens]; ogo. Qed.
#[local] Hint Resolve ks_finish_listens : ks.
Lemma ks_drain m : forall s, ks s (drain m s).
Proof. induction m as [|m IH]; intro s; cbn [drain]; ogo. Qed.
#[local] Hint Resolve ks_drain : ks.
Lemma ks_presets l s : ks s (fold_left (fun s (p : bytes * N) => conn_reset (snd p) s) l s).
Proof. apply (ks_fold (fun s (p : bytes * N) => conn_reset (snd p) s)). intros. apply ks_conn_reset. Qed.
Lemma ks_removals l s : ks s (fold_left (fun s e => emit (TRemoved e) s) l s).
Proof. apply ks_fold. intros. now apply ks_emit. Qed.
Lemma ks_unpings l s : ks s (fold_left (fun s (p : N * N) => clear_ping (snd p) (ep_reset None false (snd p) s)) l s).
Proof. apply ks_fold. intros. ogo. Qed.
#[local] Hint Resolve ks_presets ks_removals ks_unpings : ks.
Lemma ks_reset s : ks s (reset s). Proof. unfold reset. ogo. Qed.
#[local] Hint Resolve ks_reset : ks.
Lemma ks_stop_if_shut s : ks s (stop_if_shut s). Proof. unfold stop_if_shut. ogo. Qed.
#[local] Hint Resolve ks_stop_if_shut : ks.

Lemma ks_open_channels e can l : forall has s, ks s (fst (open_channels e can l has s)).
Proof. induction l as [|x r IH]; intros has s; cbn [open_channels]; ogo. Qed.
#[local] Hint Resolve ks_open_channels : ks.
Lemma ks_welcome c e r s : ks s (welcome c e r s). Proof. unfold welcome. ogo. Qed.
#[local] Hint Resolve ks_welcome : ks.
Lemma ks_reg_body c r s : ks s (fst (reg_body c r s)). Proof. unfold reg_body. ogo. Qed.
#[local] Hint Resolve ks_reg_body : ks.
Lemma ks_reg_req c h r s : ks s (fst (reg_req c h r s)). Proof. unfold reg_req. ogo. Qed.
#[local] Hint Resolve ks_reg_req : ks.
Lemma ks_reg_rsp c h r s : ks s (fst (reg_rsp c h r s)).
Proof. unfold reg_rsp, parent_reg_done. ogo. Qed.
#[local] Hint Resolve ks_reg_rsp : ks.
Lemma ks_conn_syn c h a s : ks s (fst (conn_syn c h a s)). Proof. unfold conn_syn. ogo. Qed.
#[local] Hint Resolve ks_conn_syn : ks.

(** Requests to pass on data. *)
Definition asks (m : msg) : bool := match m_body m with BData false _ => true | _ => false end.
Definition ok_msg (m : msg) : Prop := asks m = false.
Lemma ks_dispatch_msg c m s : ok_msg m -> ks s (fst (dispatch_msg c m s)).
Proof. unfold ok_msg, asks, dispatch_msg. cbv zeta. destruct (m_body m) as [[]|[]| |[] r|a|[]|]; intro H; try discriminate H; ogo. Qed.
Lemma ks_on_recv c m s : ok_msg m -> ks s (on_recv c m s).
Proof. intro H. unfold on_recv. pose proof (ks_dispatch_msg c m s H) as K. destruct (dispatch_msg c m s) as [s1 r]. cbn [fst] in K. omvn K s2. ogo. Qed.
Definition ok_item (i : item) : Prop := match i with RMsg _ m => ok_msg m | _ => True end.
Lemma ks_recv_item c i s : ok_item i -> ks s (recv_item c i s).
Proof.
  intro H. unfold recv_item. destruct i as [z|k|k m]; [ogo|ogo|]. cbv zeta.
  set (s1 := on_c c _ s). assert (K : ks s s1) by (subst s1; ogo). clearbody s1. eapply ks_trans; [exact K|]. apply ks_on_recv.
  unfold stamp. destruct (k_bind _); [|exact H]. destruct (_ =? 0); exact H.
Qed.
Definition ok_io (i : io) : Prop := match i with IRecv _ i => ok_item i | _ => True end.
Lemma ks_io_step i s : ok_io i -> ks s (io_step i s).
Proof. intros H. unfold io_step. destruct (nst s); try apply ks_refl; (destruct i; try ogo; destruct (k_kind _); try apply ks_refl; now apply ks_recv_item). Qed.
Lemma ks_ios l : forall s, (forall i, In i l -> ok_io i) -> ks s (fold_left (fun s i => io_step i s) l s).
Proof.
  induction l as [|i r IH]; intros s H; cbn [fold_left]; [apply ks_refl|].
  eapply ks_trans; [apply ks_io_step, H; now left|]. apply IH. intros j J. apply H. now right.
Qed.
Lemma ks_proc_items m c : forall l s, (forall i, In i l -> ok_item i) -> ks s (proc_items m c l s).
Proof.
  induction m as [|m IH]; intros l s H; cbn [proc_items]; [apply ks_refl|].
  assert (Z : forall z, ks s (recv_item c (RErr z) s)) by (intro; now apply ks_recv_item).
  destruct (k_kind _); try apply Z. destruct l as [|i r]; [apply ks_refl|].
  assert (K2 : ks s (proc_items m c r (recv_item c i s))).
  { eapply ks_trans; [apply ks_recv_item, H; now left|]. apply IH. intros j J. apply H. now right. }
  destruct i; [apply Z|exact K2|exact K2].
Qed.
Lemma ks_proc_one p s : (forall i, In i (snd p) -> ok_item i) -> ks s (proc_one s p).
Proof.
  intros H. unfold proc_one. destruct p as [c l]. destruct (_ && _); [|apply ks_refl]. cbv zeta.
  pose proof (ks_proc_items (N.to_nat (x_loop (cf s))) c l s H) as K. omvn K s1. ogo.
Qed.
Lemma ks_procs l : forall s, (forall p i, In p l -> In i (snd p) -> ok_item i) -> ks s (fold_left proc_one l s).
Proof.
  induction l as [|p r IH]; intros s H; cbn [fold_left]; [apply ks_refl|].
  eapply ks_trans; [apply ks_proc_one; intros i I; apply (H p); [now left|exact I]|]. apply IH. intros q j J. apply H. now right.
Qed.
Lemma ks_parent_op now s : ks s (parent_op now s). Proof. unfold parent_op. ogo. Qed.
#[local] Hint Resolve ks_parent_op : ks.
Lemma ks_start now s : ks s (fst (start now s)). Proof. unfold start. ogo. Qed.
Lemma ks_init i x s : ks s (fst (init i x s)). Proof. unfold init. ogo. Qed.
Lemma ks_poll l s : (forall i, In i l -> ok_io i) -> ks s (poll l s).
Proof. intros H. unfold poll. destruct (fl_shut s); [ogo|]. pose proof (ks_ios l s H) as K. omvn K s1. ogo. Qed.
Lemma ks_proc k now feed s s' : (forall p i, In p feed -> In i (snd p) -> ok_item i) -> proc k now feed s = Some s' -> ks s s'.
Proof.
  intros M. unfold proc. cbv zeta. set (s1 := if sec s <? now then set_sec now s else s).
  assert (K : ks s s1) by (subst s1; ogo). intro X.
  refine (ks_trans _ _ _ K _). clearbody s1. clear K. rename s1 into s2. revert X.
  set (s3 := parent_op now _). assert (K : ks s2 s3).
  { subst s3. pose proof (ks_procs feed s2 M) as K. omvn K s4. ogo. }
  clearbody s3.
  assert (Y : forall s5, ping_loop k now None s3 = Some s5 -> ks s2 (stop_if_shut (collect (fst (dispatch_self s5))))).
  { intros s5 E. apply ks_ping_loop in E. omvn K s4. omvn E s6. ogo. }
  assert (Z : ks s2 (reset (fst (dispatch_self s2)))) by ogo.
  destruct (nst s2); [intros [= <-]; apply ks_refl|..];
    (destruct (fl_shut s2); [intros [= <-]; exact Z|]; destruct (ping_loop k now None s3) as [s5|]; [|discriminate]; intros [= <-]; auto).
Qed.
Definition ok_call (ev : event) : Prop :=
  match ev with
  | EProc _ feed => forall p i, In p feed -> In i (snd p) -> ok_item i
  | EPoll l => forall i, In i l -> ok_io i
  | EIo i => ok_io i
  | _ => True
  end.
Lemma ks_step k ev s s' : ok_call ev -> step k ev s = Some s' -> ks s s'.
Proof.
  intros H. unfold step, step_ret.
  destruct ev as [i x|now|a|a|a i|i|to ty b w q|to l q|z| |now feed|l|i|o l]; cbn [option_map fst];
    try (intros [= <-]; solve [ogo | apply ks_set_salts]).
  - intros [= <-]. apply ks_init.
  - intros [= <-]. apply ks_start.
  - destruct (proc k now feed s) as [s1|] eqn:E; [|discriminate]. intros [= <-]. eapply ks_proc; eauto.
  - intros [= <-]. now apply ks_poll.
  - intros [= <-]. now apply ks_io_step.
Qed.
End Sync.
