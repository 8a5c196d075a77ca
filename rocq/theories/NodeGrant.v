(** What must have been answered before a node counts itself registered at its parent. *)
From Verif Require Import Base Subnet Route Address NodeTypes NodeConn NodeCore NodeMsg Node
  NodeFrame NodeReset NodeInv NodeKeep NodeSteps NodeCtx NodeReach NodeSpec NodeLog NodeAuth NodeTime NodeUp.
Local Open Scope N_scope.
Ltac Zify.zify_post_hook ::= idtac.

(** A registration was reported accepted. *)
Definition accepted_in (l : list tr) : Prop := exists c z, In (TReg c z) l /\ (0 <= z)%Z.
Record granted (s : node) : Prop := {
  W_preg : fl_preg s = true -> accepted_in (life (log s));
  W_up : In TUp (life (log s)) -> my_id s = 0 \/ x_parent (cf s) = [] \/ accepted_in (life (log s)) }.
(** Steps that keep this. *)
Definition kg (s s' : node) : Prop := granted s -> granted s'.
Lemma kg_refl s : kg s s. Proof. exact (fun H => H). Qed.
Lemma kg_trans s1 s2 s3 : kg s1 s2 -> kg s2 s3 -> kg s1 s3. Proof. intros A B H. exact (B (A H)). Qed.
Lemma kg_intro s s' : self s' = self s -> cf s' = cf s -> fl_preg s' = fl_preg s -> log s' = log s -> kg s s'.
Proof. intros A B C D [W1 W2]. constructor; unfold my_id in *; rewrite ?A, ?B, ?C, ?D; assumption. Qed.
Lemma accepted_more l t : accepted_in l -> accepted_in (t :: l).
Proof. intros (c & z & A & B). exists c, z. split; [now right|exact B]. Qed.
Lemma kg_emit t s : noted t -> kg s (emit t s).
Proof.
  intros N [W1 W2]. assert (E : life (log (emit t s)) = t :: life (log s)) by (destruct t; try contradiction; reflexivity).
  constructor; rewrite E.
  - intro F. now apply accepted_more, W1.
  - intros [X|X]; [now subst t|]. destruct (W2 X) as [Y|[Y|Y]]; auto. right. right. now apply accepted_more.
Qed.

Create HintDb kg discriminated.
#[export] Hint Constants Opaque : kg.
#[export] Hint Variables Opaque : kg.
#[export] Hint Extern 1 (noted _) => exact Logic.I : kg.
#[export] Hint Resolve kg_emit : kg.
Ltac jmvn H v :=
  lazymatch type of H with
  | kg ?s ?s1 => refine (kg_trans s s1 _ H _); clear H; set (v := s1) in *; clearbody v
  end.
Ltac jmv H := let v := fresh "s" in jmvn H v.
Ltac jleaf := solve [eauto 3 with kg].
Ltac jg1 :=
  cbv beta;
  lazymatch goal with
  | |- kg ?s ?s => apply kg_refl
  | |- kg ?s (fst (let x := ?e in @?b x)) => jg_let s e ltac:(fun e' => change (kg s (fst (b e'))))
  | |- kg ?s (let x := ?e in @?b x) => jg_let s e ltac:(fun e' => change (kg s (b e')))
  | |- kg ?s (fst (fst (let x := ?e in @?b x))) => jg_let s e ltac:(fun e' => change (kg s (fst (fst (b e')))))
  | |- kg ?s (fst (fst (fst (let x := ?e in @?b x)))) => jg_let s e ltac:(fun e' => change (kg s (fst (fst (fst (b e'))))))
  | |- kg ?s (fst (fst (fst (match ?x with _ => _ end)))) => jg_case s x
  | |- kg ?s (fst (fst (match ?x with _ => _ end))) => jg_case s x
  | |- kg ?s (fst (match ?x with _ => _ end)) => jg_case s x
  | |- kg ?s (match ?x with _ => _ end) => jg_case s x
  | |- kg ?s (fst (fst (fst (?x, ?y)))) => change (kg s (fst (fst x)))
  | |- kg ?s (fst (fst (?x, ?y))) => change (kg s (fst x))
  | |- kg ?s (fst (?x, ?y)) => change (kg s x)
  | |- kg ?s (fst (fst (fst (?h ?t)))) => wg_at s t
  | |- kg ?s (fst (fst (?h ?t))) => wg_at s t
  | |- kg ?s (fst (?h ?t)) => wg_at s t
  | |- kg ?s (?g ?t) => wg_at s t
  end
with wg_at s t :=
  first [ constr_eq s t; jleaf
        | let H := fresh in assert (H : kg s t) by (repeat jg1); jmv H; jleaf ]
with jg_let s e k :=
  lazymatch type of e with
  | node =>
      first [ constr_eq s e; k s; cbv beta
            | let H := fresh in assert (H : kg s e) by (repeat jg1); k e; cbv beta; jmv H ]
  | _ => let v := fresh in set (v := e); k v; cbv beta; clearbody v
  end
with jg_case s x :=
  lazymatch type of x with
  | (node * _)%type =>
      let H := fresh in assert (H : kg s (fst x)) by (repeat jg1);
      let E := fresh "E" in destruct x as [? ?] eqn:E; cbn [fst] in H; clear E; jmv H
  | (node * _ * _)%type =>
      let H := fresh in assert (H : kg s (fst (fst x))) by (repeat jg1);
      let E := fresh "E" in destruct x as [[? ?] ?] eqn:E; cbn [fst] in H; clear E; jmv H
  | (node * _ * _ * _)%type =>
      let H := fresh in assert (H : kg s (fst (fst (fst x)))) by (repeat jg1);
      let E := fresh "E" in destruct x as [[[? ?] ?] ?] eqn:E; cbn [fst] in H; clear E; jmv H
  | _ => let E := fresh "E" in destruct x eqn:E in |- *
  end.
Ltac jgo := repeat jg1.
Ltac jframe := intros; apply kg_intro; first [reflexivity | fr1].
Lemma kg_set_nst v s : kg s (set_nst v s). Proof. now apply kg_intro. Qed.
#[export] Hint Resolve kg_set_nst : kg.
Lemma kg_set_parent v s : kg s (set_parent v s). Proof. now apply kg_intro. Qed.
#[export] Hint Resolve kg_set_parent : kg.
Lemma kg_set_routes v s : kg s (set_routes v s). Proof. now apply kg_intro. Qed.
#[export] Hint Resolve kg_set_routes : kg.
Lemma kg_set_fl_self v s : kg s (set_fl_self v s). Proof. now apply kg_intro. Qed.
#[export] Hint Resolve kg_set_fl_self : kg.
Lemma kg_set_fl_gce v s : kg s (set_fl_gce v s). Proof. now apply kg_intro. Qed.
#[export] Hint Resolve kg_set_fl_gce : kg.
Lemma kg_set_fl_gcc v s : kg s (set_fl_gcc v s). Proof. now apply kg_intro. Qed.
#[export] Hint Resolve kg_set_fl_gcc : kg.
Lemma kg_set_fl_gcreset v s : kg s (set_fl_gcreset v s). Proof. now apply kg_intro. Qed.
#[export] Hint Resolve kg_set_fl_gcreset : kg.
Lemma kg_fold {A} (f : node -> A -> node) : (forall s x, kg s (f s x)) -> forall l s, kg s (fold_left f l s).
Proof. intros F l. induction l as [|x r IH]; intro s; cbn [fold_left]; [apply kg_refl|]. eapply kg_trans; [apply F|apply IH]. Qed.
Lemma kg_set_connecting v s : kg s (set_connecting v s). Proof. now apply kg_intro. Qed.
#[export] Hint Resolve kg_set_connecting : kg.
Lemma kg_set_pings v s : kg s (set_pings v s). Proof. now apply kg_intro. Qed.
#[export] Hint Resolve kg_set_pings : kg.
Lemma kg_set_pend v s : kg s (set_pend v s). Proof. now apply kg_intro. Qed.
#[export] Hint Resolve kg_set_pend : kg.
Lemma kg_set_lpend v s : kg s (set_lpend v s). Proof. now apply kg_intro. Qed.
#[export] Hint Resolve kg_set_lpend : kg.
Lemma kg_set_gce v s : kg s (set_gce v s). Proof. now apply kg_intro. Qed.
#[export] Hint Resolve kg_set_gce : kg.
Lemma kg_set_gcc v s : kg s (set_gcc v s). Proof. now apply kg_intro. Qed.
#[export] Hint Resolve kg_set_gcc : kg.
Lemma kg_set_procs v s : kg s (set_procs v s). Proof. now apply kg_intro. Qed.
#[export] Hint Resolve kg_set_procs : kg.
Lemma kg_set_seqn v s : kg s (set_seqn v s). Proof. now apply kg_intro. Qed.
#[export] Hint Resolve kg_set_seqn : kg.
Lemma kg_set_qdata v s : kg s (set_qdata v s). Proof. now apply kg_intro. Qed.
#[export] Hint Resolve kg_set_qdata : kg.
Lemma kg_set_qcmd v s : kg s (set_qcmd v s). Proof. now apply kg_intro. Qed.
#[export] Hint Resolve kg_set_qcmd : kg.
Lemma kg_set_orc v s : kg s (set_orc v s). Proof. now apply kg_intro. Qed.
#[export] Hint Resolve kg_set_orc : kg.
Lemma kg_set_salts v s : kg s (set_salts v s). Proof. now apply kg_intro. Qed.
#[export] Hint Resolve kg_set_salts : kg.
Lemma kg_set_cs v s : kg s (set_cs v s). Proof. now apply kg_intro. Qed.
#[export] Hint Resolve kg_set_cs : kg.
Lemma kg_set_es v s : kg s (set_es v s). Proof. now apply kg_intro. Qed.
#[export] Hint Resolve kg_set_es : kg.
Lemma kg_set_nextc v s : kg s (set_nextc v s). Proof. now apply kg_intro. Qed.
#[export] Hint Resolve kg_set_nextc : kg.
Lemma kg_set_nexte v s : kg s (set_nexte v s). Proof. now apply kg_intro. Qed.
#[export] Hint Resolve kg_set_nexte : kg.
Lemma kg_on_c c f s : kg s (on_c c f s). Proof. jframe. Qed.
#[export] Hint Resolve kg_on_c : kg.
Lemma kg_on_e e f s : kg s (on_e e f s). Proof. jframe. Qed.
#[export] Hint Resolve kg_on_e : kg.
Lemma kg_rm_timer c s : kg s (rm_timer c s). Proof. unfold rm_timer. jgo. Qed.
#[export] Hint Resolve kg_rm_timer : kg.
Lemma kg_set_status c v s : kg s (set_status c v s). Proof. unfold set_status. jgo. Qed.
#[export] Hint Resolve kg_set_status : kg.
Lemma kg_on_actived s : (granted s -> my_id s = 0 \/ x_parent (cf s) = [] \/ accepted_in (life (log s))) -> kg s (on_actived s).
Proof.
  intros A G. pose proof (A G) as B. destruct G as [W1 W2]. unfold on_actived. cbn [fl_act set_nst].
  destruct (fl_act s); constructor; cbn; auto.
  - intro F. now apply accepted_more, W1.
  - intros _. destruct B as [B|[B|B]]; auto. right. right. now apply accepted_more.
Qed.
Lemma kg_fatal_shutdown z s : kg s (fatal_shutdown z s). Proof. unfold fatal_shutdown, shutdown. destruct (fl_shut s); [apply kg_refl|].
  assert (K : kg s (set_fl_shut true s)) by now apply kg_intro. jmvn K s1. jgo. Qed.
#[export] Hint Resolve kg_fatal_shutdown : kg.
Lemma kg_set_popr v s : kg s (set_popr v s). Proof. now apply kg_intro. Qed.
#[export] Hint Resolve kg_set_popr : kg.
Lemma kg_on_disconnect c s : kg s (on_disconnect c s). Proof. unfold on_disconnect. jgo. Qed.
#[export] Hint Resolve kg_on_disconnect : kg.
Lemma kg_rm_proc a s : kg s (rm_proc a s). Proof. jframe. Qed.
#[export] Hint Resolve kg_rm_proc : kg.
Lemma kg_add_proc c s : kg s (add_proc c s). Proof. jframe. Qed.
#[export] Hint Resolve kg_add_proc : kg.
Lemma kg_add_timer c s : kg s (add_timer c s). Proof. jframe. Qed.
#[export] Hint Resolve kg_add_timer : kg.
Lemma kg_gc_conn c s : kg s (gc_conn c s). Proof. jframe. Qed.
#[export] Hint Resolve kg_gc_conn : kg.
Lemma kg_gc_ep e s : kg s (gc_ep e s). Proof. jframe. Qed.
#[export] Hint Resolve kg_gc_ep : kg.
Lemma kg_clear_ping e s : kg s (clear_ping e s). Proof. jframe. Qed.
#[export] Hint Resolve kg_clear_ping : kg.
Lemma kg_insert_ping e s : kg s (insert_ping e s). Proof. jframe. Qed.
#[export] Hint Resolve kg_insert_ping : kg.
Lemma kg_add_ping e s : kg s (add_ping e s). Proof. jframe. Qed.
#[export] Hint Resolve kg_add_ping : kg.
Lemma kg_disconnect c s : kg s (disconnect c s). Proof. unfold disconnect. jgo. Qed.
#[export] Hint Resolve kg_disconnect : kg.
Lemma kg_conn_close c s : kg s (conn_close c s). Proof. unfold conn_close. jgo. Qed.
#[export] Hint Resolve kg_conn_close : kg.
Lemma kg_conn_fin c s : kg s (conn_fin c s). Proof. unfold conn_fin. jgo. Qed.
#[export] Hint Resolve kg_conn_fin : kg.
Lemma kg_conn_reset_in c s : kg s (conn_reset_in c s). Proof. unfold conn_reset_in. jgo. Qed.
#[export] Hint Resolve kg_conn_reset_in : kg.
Lemma kg_resets l s : kg s (fold_left (fun s c => conn_reset_in c s) l s). Proof. apply kg_fold. intros. apply kg_conn_reset_in. Qed.
#[export] Hint Resolve kg_resets : kg.
Lemma kg_ep_reset b g e s : kg s (ep_reset b g e s). Proof. unfold ep_reset. jgo. Qed.
#[export] Hint Resolve kg_ep_reset : kg.
Lemma kg_conn_reset c s : kg s (conn_reset c s). Proof. unfold conn_reset. jgo. Qed.
#[export] Hint Resolve kg_conn_reset : kg.
Lemma kg_ep_drop e s : kg s (ep_drop e s). Proof. unfold ep_drop. jgo. Qed.
#[export] Hint Resolve kg_ep_drop : kg.
Lemma kg_conn_drop c s : kg s (conn_drop c s). Proof. unfold conn_drop. jgo. Qed.
#[export] Hint Resolve kg_conn_drop : kg.
Lemma kg_conn_fault c s : kg s (conn_fault c s). Proof. unfold conn_fault. jgo. Qed.
#[export] Hint Resolve kg_conn_fault : kg.
Lemma kg_add_endpoint e s : kg s (fst (add_endpoint e s)).
Proof.
  unfold add_endpoint. destruct (fl_reset s); [apply kg_refl|]. destruct (_ && _); [|jgo].
  destruct (parent s); [apply kg_refl|]. cbv zeta. cbn [fst].
  assert (K : kg s (add_ping e (set_parent (Some e) s))) by jgo. jmvn K s1.
  destruct (_ && fl_preg s1) eqn:E; [|jgo]. apply andb_prop in E as [_ E].
  assert (K : kg s1 (on_actived s1)). { apply kg_on_actived. intros [W1 _]. right. right. now apply W1. }
  jmvn K s2. jgo.
Qed.
#[export] Hint Resolve kg_add_endpoint : kg.
Lemma kg_remove_endpoint i x s : kg s (fst (remove_endpoint i x s)). Proof. unfold remove_endpoint. jgo. Qed.
#[export] Hint Resolve kg_remove_endpoint : kg.
Lemma kg_ep_fault e s : kg s (fst (ep_fault e s)). Proof. unfold ep_fault. jgo. Qed.
#[export] Hint Resolve kg_ep_fault : kg.
Lemma kg_add_listen e a s : kg s (add_listen e a s). Proof. jframe. Qed.
#[export] Hint Resolve kg_add_listen : kg.
Lemma kg_written c z n s : kg s (written c z n s). Proof. unfold written. jgo. Qed.
#[export] Hint Resolve kg_written : kg.
Lemma kg_conn_create  s : kg s (fst (conn_create  s)). Proof. unfold conn_create. jgo. Qed.
#[export] Hint Resolve kg_conn_create : kg.
Lemma kg_ep_create i u p h s : kg s (fst (ep_create i u p h s)). Proof. jframe. Qed.
#[export] Hint Resolve kg_ep_create : kg.
Lemma kg_add_connection e c b s : kg s (fst (add_connection e c b s)). Proof. unfold add_connection. jgo. Qed.
#[export] Hint Resolve kg_add_connection : kg.
Lemma kg_created e s : kg s (fst (created e s)). Proof. jframe. Qed.
#[export] Hint Resolve kg_created : kg.
Lemma kg_alloc_seq  s : kg s (fst (alloc_seq  s)). Proof. jframe. Qed.
#[export] Hint Resolve kg_alloc_seq : kg.
Lemma kg_take_orc  s : kg s (fst (take_orc  s)). Proof. jframe. Qed.
#[export] Hint Resolve kg_take_orc : kg.
Lemma kg_take_salt  s : kg s (fst (take_salt  s)). Proof. jframe. Qed.
#[export] Hint Resolve kg_take_salt : kg.
Lemma kg_push c m s : kg s (fst (push c m s)). Proof. unfold push. jgo. Qed.
#[export] Hint Resolve kg_push : kg.
Lemma kg_send_on c m s : kg s (fst (send_on c m s)). Proof. unfold send_on. jgo. Qed.
#[export] Hint Resolve kg_send_on : kg.

Lemma kg_gen_keys ts : forall s, kg s (fst (gen_keys ts s)).
Proof. induction ts as [|t r IH]; intro s; cbn [gen_keys]; jgo. Qed.
#[export] Hint Resolve kg_gen_keys : kg.
Lemma kg_send_reg rsp c z q s : kg s (fst (send_reg rsp c z q s)). Proof. unfold send_reg. jgo. Qed.
#[export] Hint Resolve kg_send_reg : kg.
Lemma kg_send_ping c q s : kg s (fst (send_ping c q s)). Proof. unfold send_ping. jgo. Qed.
#[export] Hint Resolve kg_send_ping : kg.
Lemma kg_on_new_connection c s : kg s (on_new_connection c s). Proof. unfold on_new_connection. jgo. Qed.
#[export] Hint Resolve kg_on_new_connection : kg.
Lemma kg_number m s : kg s (fst (number m s)). Proof. unfold number. jgo. Qed.
#[export] Hint Resolve kg_number : kg.
Lemma kg_post d i m s : kg s (fst (post d i m s)). Proof. unfold post. jgo. Qed.
#[export] Hint Resolve kg_post : kg.
Lemma kg_send_cmd_rsp oc d t z q f s : kg s (fst (send_cmd_rsp oc d t z q f s)). Proof. unfold send_cmd_rsp. jgo. Qed.
#[export] Hint Resolve kg_send_cmd_rsp : kg.
Lemma kg_cmd_req oc h q s : kg s (fst (cmd_req oc h q s)). Proof. unfold cmd_req. jgo. Qed.
#[export] Hint Resolve kg_cmd_req : kg.
Lemma kg_cmd_rsp oc h q s : kg s (fst (cmd_rsp oc h q s)). Proof. unfold cmd_rsp. jgo. Qed.
#[export] Hint Resolve kg_cmd_rsp : kg.
Lemma kg_self_data m s : kg s (self_data m s). Proof. unfold self_data. jgo. Qed.
#[export] Hint Resolve kg_self_data : kg.
Lemma kg_self_cmd m s : kg s (self_cmd m s). Proof. unfold self_cmd. jgo. Qed.
#[export] Hint Resolve kg_self_cmd : kg.
Lemma kg_data_loop n : forall s, kg s (fst (fst (self_data_loop n s))).
Proof. induction n as [|n IH]; intro s; cbn [self_data_loop]; jgo. Qed.
Lemma kg_cmd_loop n : forall s, kg s (fst (self_cmd_loop n s)).
Proof. induction n as [|n IH]; intro s; cbn [self_cmd_loop]; jgo. Qed.
#[export] Hint Resolve kg_data_loop kg_cmd_loop : kg.
Lemma kg_dispatch_self s : kg s (fst (dispatch_self s)).
Proof. unfold dispatch_self. jgo. Qed.
#[export] Hint Resolve kg_dispatch_self : kg.
Lemma kg_send_to d i m s : kg s (fst (send_to d i m s)). Proof. unfold send_to. jgo. Qed.
#[export] Hint Resolve kg_send_to : kg.
Lemma kg_conn_connect c a s : kg s (fst (conn_connect c a s)). Proof. unfold conn_connect. jgo. Qed.
#[export] Hint Resolve kg_conn_connect : kg.
Lemma kg_connect a s : kg s (fst (connect a s)). Proof. unfold connect. jgo. Qed.
#[export] Hint Resolve kg_connect : kg.
Lemma kg_connect_ep a e s : kg s (fst (connect_ep a e s)). Proof. unfold connect_ep. jgo. Qed.
#[export] Hint Resolve kg_connect_ep : kg.
Lemma kg_listen_cb c z s : kg s (listen_cb c z s). Proof. unfold listen_cb. jgo. Qed.
#[export] Hint Resolve kg_listen_cb : kg.
Lemma kg_conn_listen c a s : kg s (fst (conn_listen c a s)). Proof. unfold conn_listen. jgo. Qed.
#[export] Hint Resolve kg_conn_listen : kg.
Lemma kg_listen a s : kg s (fst (listen a s)). Proof. unfold listen. jgo. Qed.
#[export] Hint Resolve kg_listen : kg.
Lemma kg_connected_cb c z s : kg s (connected_cb c z s). Proof. unfold connected_cb. jgo. Qed.
#[export] Hint Resolve kg_connected_cb : kg.
Lemma kg_listened c z s : kg s (listened c z s). Proof. unfold listened. jgo. Qed.
#[export] Hint Resolve kg_listened : kg.
Lemma kg_accept_failed s : kg s (accept_failed s). Proof. unfold accept_failed. jgo. Qed.
#[export] Hint Resolve kg_accept_failed : kg.
Lemma kg_accepted a s : kg s (accepted a s). Proof. unfold accepted. jgo. Qed.
#[export] Hint Resolve kg_accepted : kg.
Lemma kg_peer_closed c s : kg s (peer_closed c s). Proof. unfold peer_closed. jgo. Qed.
#[export] Hint Resolve kg_peer_closed : kg.
Lemma kg_node_disconnect i s : kg s (fst (node_disconnect i s)). Proof. unfold node_disconnect. jgo. Qed.
#[export] Hint Resolve kg_node_disconnect : kg.
Lemma kg_transfer_rsp h w z s : kg s (fst (transfer_rsp h w z s)). Proof. unfold transfer_rsp. jgo. Qed.
#[export] Hint Resolve kg_transfer_rsp : kg.
Lemma kg_forward r h w f t s : kg s (fst (fst (fst (forward r h w f t s)))). Proof. unfold forward. jgo. Qed.
#[export] Hint Resolve kg_forward : kg.
Lemma kg_connect_sync x y s : kg s (fst (connect_sync x y s)). Proof. unfold connect_sync. jgo. Qed.
#[export] Hint Resolve kg_connect_sync : kg.
Lemma kg_data_req c h w s : kg s (fst (data_req c h w s)). Proof. unfold data_req. jgo. Qed.
#[export] Hint Resolve kg_data_req : kg.
Lemma kg_data_rsp c h w s : kg s (fst (data_rsp c h w s)). Proof. unfold data_rsp. jgo. Qed.
#[export] Hint Resolve kg_data_rsp : kg.
Lemma kg_sync_msg r c h s : kg s (fst (sync_msg r c h s)). Proof. unfold sync_msg. jgo. Qed.
#[export] Hint Resolve kg_sync_msg : kg.
Lemma kg_reg_deny c z q s : kg s (fst (reg_deny c z q s)). Proof. unfold reg_deny. jgo. Qed.
#[export] Hint Resolve kg_reg_deny : kg.
Lemma kg_open_channels e can l : forall has s, kg s (fst (open_channels e can l has s)).
Proof. induction l as [|x r IH]; intros has s; cbn [open_channels]; jgo. Qed.
#[export] Hint Resolve kg_open_channels : kg.
Lemma kg_welcome c e r s : kg s (welcome c e r s). Proof. unfold welcome. jgo. Qed.
#[export] Hint Resolve kg_welcome : kg.
Lemma kg_parent_reg_done s : accepted_in (life (log s)) -> kg s (parent_reg_done s).
Proof.
  intro A. assert (K : kg s (set_fl_preg true s)) by (intros [W1 W2]; now constructor).
  unfold parent_reg_done. cbv zeta. jmvn K s1. jgo.
Qed.
Lemma log_parent_reg_done s : log (parent_reg_done s) = log s.
Proof. unfold parent_reg_done. cbv zeta. destruct (_ <? _); reflexivity. Qed.
Lemma kg_reg_rsp c h r s : kg s (fst (reg_rsp c h r s)).
Proof.
  unfold reg_rsp. assert (K : kg s (emit (TReg c (h_ret h)) s)) by (apply kg_emit; exact Logic.I).
  assert (A : (0 <= h_ret h)%Z -> accepted_in (life (log (emit (TReg c (h_ret h)) s)))).
  { intro Z. exists c, (h_ret h). split; [now left|exact Z]. }
  cbv zeta. jmvn K s1. destruct (negb _ || (h_ret h <? 0)%Z) eqn:B; [jgo|].
  apply orb_false_iff in B as [_ B]. apply Z.ltb_ge in B. specialize (A B).
  assert (P := kg_parent_reg_done s1 A).
  destruct (nst s1); try apply kg_refl. destruct (is_parent s1 (r_id r)); cbn [fst].
  - eapply kg_trans; [exact P|]. apply kg_on_actived. intros _. right. right. now rewrite log_parent_reg_done.
  - destruct (confs_contain_id _ _) as [[]|]; cbn [fst]; [exact P|apply kg_refl|apply kg_emit; exact Logic.I].
Qed.
#[export] Hint Resolve kg_reg_rsp : kg.
Lemma kg_conn_syn c h a s : kg s (fst (conn_syn c h a s)). Proof. unfold conn_syn. jgo. Qed.
#[export] Hint Resolve kg_conn_syn : kg.
Lemma kg_ping_msg c h t s : kg s (fst (ping_msg c h t s)). Proof. unfold ping_msg. jgo. Qed.
#[export] Hint Resolve kg_ping_msg : kg.
Lemma kg_pong_msg c h t s : kg s (fst (pong_msg c h t s)). Proof. unfold pong_msg. jgo. Qed.
#[export] Hint Resolve kg_pong_msg : kg.
Lemma kg_fault_of c s : kg s (fault_of c s). Proof. unfold fault_of. jgo. Qed.
#[export] Hint Resolve kg_fault_of : kg.
Lemma kg_sweep n now : forall s, kg s (sweep n now s).
Proof. induction n as [|n IH]; intro s; cbn [sweep]; jgo. Qed.
#[export] Hint Resolve kg_sweep : kg.
Lemma kg_fault_drop h e s : kg s (fst (fault_drop h e s)). Proof. unfold fault_drop. jgo. Qed.
#[export] Hint Resolve kg_fault_drop : kg.
Lemma kg_ping_endpoint h e s : kg s (fst (ping_endpoint h e s)). Proof. unfold ping_endpoint. jgo. Qed.
#[export] Hint Resolve kg_ping_endpoint : kg.
Lemma kg_idle_out n e s : kg s (fst (idle_out n e s)). Proof. unfold idle_out. jgo. Qed.
#[export] Hint Resolve kg_idle_out : kg.
Lemma kg_release nx s : kg s (release nx s). Proof. unfold release. jgo. Qed.
#[export] Hint Resolve kg_release : kg.
Lemma kg_ping_loop now n : forall nx s s', ping_loop n now nx s = Some s' -> kg s s'.
Proof.
  induction n as [|n IH]; intros nx s s' X; cbn [ping_loop] in X; [discriminate|].
  destruct (pings s) as [|[t e0] l]; [injection X as <-; apply kg_release|].
  destruct (now <? t); [injection X as <-; apply kg_release|]. cbv zeta in X.
  set (e := match nx with Some e => e | None => e0 end) in X.
  pose proof (kg_idle_out now e s) as K. destruct (idle_out now e s) as [s1 out]. cbn [fst] in K. jmvn K s2.
  destruct out.
  - apply IH in X. refine (kg_trans _ _ _ _ X). jgo.
  - set (s3 := if match parent s2 with Some p => e_ref p =? e | None => false end then s2 else fst (ping_endpoint true e s2)) in X.
    assert (K : kg s2 s3) by (unfold s3; destruct (match parent s2 with Some p => _ | None => _ end); jgo).
    clearbody s3. jmvn K s5.
    set (s4 := add_ping (d_ep (es s5 e)) s5) in X.
    assert (K : kg s5 s4) by (unfold s4; jgo). clearbody s4. jmvn K s6.
    destruct (pings s6) as [|[t2 e2] r]; [injection X as <-; jgo|].
    destruct (now <? t2); [injection X as <-; jgo|].
    destruct (negb (t2 =? t)); [|destruct (e2 =? e)]; apply IH in X; refine (kg_trans _ _ _ _ X); jgo.
Qed.
Lemma kg_gc_one s x : kg s (gc_one s x).
Proof. unfold gc_one. jgo. Qed.
Lemma kg_drop_ep s e : kg s (drop_ep s e). Proof. apply kg_ep_drop. Qed.
Lemma kg_gcs l s : kg s (fold_left gc_one l s). Proof. apply kg_fold. intros. apply kg_gc_one. Qed.
Lemma kg_drops l s : kg s (fold_left drop_ep l s). Proof. apply kg_fold. intros. apply kg_drop_ep. Qed.
Lemma kg_cdrops l s : kg s (fold_left (fun s c => conn_drop c s) l s). Proof. apply kg_fold. intros. apply kg_conn_drop. Qed.
#[export] Hint Resolve kg_gcs kg_drops kg_cdrops : kg.
Lemma kg_collect s : kg s (collect s).
Proof. unfold collect. jgo. Qed.
#[export] Hint Resolve kg_collect : kg.
Lemma kg_send_data a b c d e s : kg s (fst (send_data a b c d e s)). Proof. unfold send_data. jgo. Qed.
#[export] Hint Resolve kg_send_data : kg.
Lemma kg_send_custom a b c s : kg s (fst (send_custom a b c s)). Proof. unfold send_custom. jgo. Qed.
#[export] Hint Resolve kg_send_custom : kg.
Lemma kg_reg_body c r s : kg s (fst (reg_body c r s)). Proof. unfold reg_body. jgo. Qed.
#[export] Hint Resolve kg_reg_body : kg.
Lemma kg_reg_req c h r s : kg s (fst (reg_req c h r s)). Proof. unfold reg_req. jgo. Qed.
#[export] Hint Resolve kg_reg_req : kg.
Lemma kg_dispatch_msg c m s : kg s (fst (dispatch_msg c m s)). Proof. unfold dispatch_msg. jgo. Qed.
#[export] Hint Resolve kg_dispatch_msg : kg.
Lemma kg_on_recv c m s : kg s (on_recv c m s). Proof. unfold on_recv. jgo. Qed.
#[export] Hint Resolve kg_on_recv : kg.
Lemma kg_recv_item c i s : kg s (recv_item c i s). Proof. unfold recv_item. destruct i; jgo. Qed.
#[export] Hint Resolve kg_recv_item : kg.
Lemma kg_io_step i s : kg s (io_step i s). Proof. unfold io_step. jgo. Qed.
#[export] Hint Resolve kg_io_step : kg.
Lemma kg_ios l s : kg s (fold_left (fun s i => io_step i s) l s). Proof. apply kg_fold. intros. apply kg_io_step. Qed.
#[export] Hint Resolve kg_ios : kg.
Lemma kg_proc_items n c : forall l s, kg s (proc_items n c l s).
Proof. induction n as [|n IH]; intros l s; cbn [proc_items]; [apply kg_refl|]. jgo. Qed.
#[export] Hint Resolve kg_proc_items : kg.
Lemma kg_proc_one s p : kg s (proc_one s p). Proof. unfold proc_one. destruct p as [c l]. jgo. Qed.
Lemma kg_procs l s : kg s (fold_left proc_one l s). Proof. apply kg_fold. intros. apply kg_proc_one. Qed.
#[export] Hint Resolve kg_procs : kg.
Lemma kg_parent_op now s : kg s (parent_op now s). Proof. unfold parent_op. jgo. Qed.
#[export] Hint Resolve kg_parent_op : kg.
Lemma kg_start now s : kg s (fst (start now s)).
Proof.
  unfold start. assert (K : kg s (set_sec now s)) by now apply kg_intro.
  destruct (nst s); [apply kg_refl|..]; cbv zeta; jmvn K s1;
    (destruct (my_id s1 =? 0) eqn:I; [|destruct (bytes_eqb (x_parent (cf s1)) []) eqn:B]; cbn [negb andb fst];
     [apply kg_on_actived; intros _; left; now apply N.eqb_eq
     |apply kg_on_actived; intros _; right; left; destruct (x_parent (cf s1)); [reflexivity|discriminate B]
     |jgo]).
Qed.
Lemma reset_life s : fl_reset s = false -> life (log (reset s)) = [] /\ fl_preg (reset s) = false.
Proof. intro F. unfold reset. rewrite F. cbv zeta. split; reflexivity. Qed.
Lemma kg_reset s : kg s (reset s).
Proof.
  intro G. destruct (fl_reset s) eqn:F; [unfold reset; now rewrite F|].
  destruct (reset_life s F) as [L P]. constructor; rewrite ?L, ?P; [discriminate|contradiction].
Qed.
#[export] Hint Resolve kg_reset : kg.
Lemma kg_stop_if_shut s : kg s (stop_if_shut s). Proof. unfold stop_if_shut. jgo. Qed.
#[export] Hint Resolve kg_stop_if_shut : kg.
Lemma kg_poll l s : kg s (poll l s). Proof. unfold poll. jgo. Qed.
Lemma kg_proc n now feed s s' : proc n now feed s = Some s' -> kg s s'.
Proof.
  unfold proc. cbv zeta. set (s1 := if sec s <? now then set_sec now s else s).
  assert (K : kg s s1) by (subst s1; destruct (_ <? _); now apply kg_intro). intro X.
  refine (kg_trans _ _ _ K _). clearbody s1. clear K. rename s1 into s2. revert X.
  set (s3 := parent_op now _). assert (K : kg s2 s3) by (subst s3; jgo). clearbody s3.
  assert (Y : forall s5, ping_loop n now None s3 = Some s5 -> kg s2 (stop_if_shut (collect (fst (dispatch_self s5))))).
  { intros s5 E. apply kg_ping_loop in E. jmvn K s4. jmvn E s6. jgo. }
  assert (Z : kg s2 (reset (fst (dispatch_self s2)))) by jgo.
  destruct (nst s2); [intros [= <-]; apply kg_refl|..];
    (destruct (fl_shut s2); [intros [= <-]; exact Z|]; destruct (ping_loop n now None s3) as [s5|]; [|discriminate]; intros [= <-]; auto).
Qed.
(** [init] starts a new life: nothing was reported up before. *)
Lemma granted_down s : (fl_preg s = true -> accepted_in (life (log s))) -> ~ In TUp (life (log s)) -> granted s.
Proof. intros A B. constructor; [exact A|]. intro X. now elim B. Qed.
Lemma granted_init i x s : idle s -> upok s -> granted s -> granted (fst (init i x s)).
Proof.
  intros ID O G. unfold init. set (s0 := match nst s with NCreated => s | _ => reset s end).
  assert (D : granted s0 /\ ~ In TUp (life (log s0))).
  { assert (R : granted (reset s) /\ ~ In TUp (life (log (reset s)))).
    { split; [now apply kg_reset|]. destruct (reset_life s) as [L _]; [apply (idle_flags s ID)|]. rewrite L. auto. }
    subst s0. destruct (nst s) eqn:N; trivial. split; [exact G|]. apply (O_created s O N). }
  clearbody s0. destruct D as [[D1 _] D2].
  assert (D3 : granted (set_cf x s0)) by now apply granted_down.
  cbv zeta. destruct (endpoint_subnets i (x_nets x)) as [subs|]; [|now apply kg_emit].
  set (s1 := ep_create i subs (x_pid x) (x_host x) (set_cf x s0)).
  assert (L : log (fst s1) = log s0 /\ fl_preg (fst s1) = fl_preg s0).
  { subst s1. unfold ep_create. cbn [fst]. unfold insert_ping. destruct (_ || _); cbn; auto. }
  destruct s1 as [s1 e]. cbn [fst] in L. destruct L as [L1 L2].
  assert (D4 : granted (set_self (Some e) s1)). { apply granted_down; cbn; rewrite ?L1, ?L2; auto. }
  cbn [fst]. revert D4. generalize (set_self (Some e) s1). intro s2. change (kg s2 (set_nst NInited (set_qdata [] (set_qcmd []
    (clear_ping (e_ref e) (match self (set_cf x s0) with Some o => ep_drop (e_ref o) s2 | None => s2 end)))))). jgo.
Qed.
Lemma kg_step n ev s s' : idle s -> upok s -> step n ev s = Some s' -> kg s s'.
Proof.
  intros ID O. unfold step, step_ret.
  destruct ev as [i x|now|a|a|a i|i|to ty b w q|to l q|z| |now feed|l|i|o l]; cbn [option_map fst];
    try (intros [= <-]; eauto with kg; fail).
  - intros [= <-] G. now apply granted_init.
  - intros [= <-]. apply kg_start.
  - intros [= <-]. destruct (get_endpoint s i); [apply kg_connect_ep|apply kg_refl].
  - intros [= <-]. apply kg_fatal_shutdown.
  - destruct (proc n now feed s) as [s1|] eqn:E; [|discriminate]. intros [= <-]. eapply kg_proc; eauto.
  - intros [= <-]. apply kg_poll.
  - intros [= <-]. now apply kg_intro.
Qed.
Theorem granted_run n evs : forall s, run n evs new_node = Some s -> granted s.
Proof.
  induction evs as [|ev l IH] using rev_ind; intros s R; [injection R as <-; constructor; cbn; [discriminate|contradiction]|].
  rewrite run_app in R. destruct (run n l new_node) as [s0|] eqn:E; [|discriminate]. cbn [run] in R.
  destruct (step n ev s0) as [s1|] eqn:S; [|discriminate]. injection R as <-.
  assert (RE : reachable s0) by now exists n, l.
  apply (kg_step n ev s0 s1); auto; [apply (reachable_good s0 RE)|now apply reachable_upok].
Qed.
