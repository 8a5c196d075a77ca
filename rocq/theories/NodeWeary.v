(** How the ping state of one endpoint changes: the fault counter is not lowered and an
    unanswered ping is not forgotten unless something is received from the endpoint. *)
From Verif Require Import Base Subnet Route Address NodeTypes NodeConn NodeCore NodeMsg Node
  NodeFrame NodeReset NodeInv NodeKeep.
Local Open Scope N_scope.
Ltac Zify.zify_post_hook ::= idtac.

Section Weary.
Variable e0 : N.
Definition wr (s s' : node) : Prop := cf s' = cf s /\ nexte s <= nexte s' /\
  (e0 < nexte s -> d_fault (es s e0) <= d_fault (es s' e0) /\ (d_ping (es s e0) <> 0 -> d_ping (es s' e0) <> 0)).
Lemma wr_refl s : wr s s.
Proof. split; [reflexivity|]. split; [apply N.le_refl|]. intros _. split; [apply N.le_refl|trivial]. Qed.
Lemma wr_trans s1 s2 s3 : wr s1 s2 -> wr s2 s3 -> wr s1 s3.
Proof.
  intros (A0 & A1 & A2) (B0 & B1 & B2). split; [congruence|]. split; [lia|].
  intro L. destruct (A2 L) as [A3 A4]. destruct (B2 ltac:(lia)) as [B3 B4]. split; [lia|auto].
Qed.
Lemma wr_es s s' : cf s' = cf s -> nexte s' = nexte s ->
  (forall x, d_fault (es s' x) = d_fault (es s x) /\ d_ping (es s' x) = d_ping (es s x)) -> wr s s'.
Proof. intros C E F. unfold wr. destruct (F e0) as [-> ->]. rewrite E, C. apply (wr_refl s). Qed.
Lemma wr_same s s' : cf s' = cf s -> nexte s' = nexte s -> es s' = es s -> wr s s'.
Proof. intros C E F. apply wr_es; [exact C|exact E|]. rewrite F. auto. Qed.

Create HintDb wr discriminated.
#[local] Hint Constants Opaque : wr.
#[local] Hint Variables Opaque : wr.
Ltac wmvn H v :=
  lazymatch type of H with
  | wr ?s ?s1 => refine (wr_trans s s1 _ H _); clear H; set (v := s1) in *; clearbody v
  end.
Ltac wmv H := let v := fresh "s" in wmvn H v.
Ltac wleaf := solve [eauto 3 with wr].
Ltac wg1 :=
  cbv beta;
  lazymatch goal with
  | |- wr ?s ?s => apply wr_refl
  | |- wr ?s (fst (let x := ?e in @?b x)) => wg_let s e ltac:(fun e' => change (wr s (fst (b e'))))
  | |- wr ?s (let x := ?e in @?b x) => wg_let s e ltac:(fun e' => change (wr s (b e')))
  | |- wr ?s (fst (fst (let x := ?e in @?b x))) => wg_let s e ltac:(fun e' => change (wr s (fst (fst (b e')))))
  | |- wr ?s (fst (fst (fst (let x := ?e in @?b x)))) => wg_let s e ltac:(fun e' => change (wr s (fst (fst (fst (b e'))))))
  | |- wr ?s (fst (fst (fst (match ?x with _ => _ end)))) => wg_case s x
  | |- wr ?s (fst (fst (match ?x with _ => _ end))) => wg_case s x
  | |- wr ?s (fst (match ?x with _ => _ end)) => wg_case s x
  | |- wr ?s (match ?x with _ => _ end) => wg_case s x
  | |- wr ?s (fst (fst (fst (?x, ?y)))) => change (wr s (fst (fst x)))
  | |- wr ?s (fst (fst (?x, ?y))) => change (wr s (fst x))
  | |- wr ?s (fst (?x, ?y)) => change (wr s x)
  | |- wr ?s (fst (fst (fst (?h ?t)))) => wg_at s t
  | |- wr ?s (fst (fst (?h ?t))) => wg_at s t
  | |- wr ?s (fst (?h ?t)) => wg_at s t
  | |- wr ?s (?g ?t) => wg_at s t
  end
with wg_at s t :=
  first [ constr_eq s t; wleaf
        | let H := fresh in assert (H : wr s t) by (repeat wg1); wmv H; wleaf ]
with wg_let s e k :=
  lazymatch type of e with
  | node =>
      first [ constr_eq s e; k s; cbv beta
            | let H := fresh in assert (H : wr s e) by (repeat wg1); k e; cbv beta; wmv H ]
  | _ => let v := fresh in set (v := e); k v; cbv beta; clearbody v
  end
with wg_case s x :=
  lazymatch type of x with
  | (node * _)%type =>
      let H := fresh in assert (H : wr s (fst x)) by (repeat wg1);
      let E := fresh "E" in destruct x as [? ?] eqn:E; cbn [fst] in H; clear E; wmv H
  | (node * _ * _)%type =>
      let H := fresh in assert (H : wr s (fst (fst x))) by (repeat wg1);
      let E := fresh "E" in destruct x as [[? ?] ?] eqn:E; cbn [fst] in H; clear E; wmv H
  | (node * _ * _ * _)%type =>
      let H := fresh in assert (H : wr s (fst (fst (fst x)))) by (repeat wg1);
      let E := fresh "E" in destruct x as [[[? ?] ?] ?] eqn:E; cbn [fst] in H; clear E; wmv H
  | _ => let E := fresh "E" in destruct x eqn:E in |- *
  end.
Ltac wgo := repeat wg1.
Ltac wframe := intros; apply wr_same; first [reflexivity | fr1].
Lemma wr_set_nst v s : wr s (set_nst v s). Proof. now apply wr_same. Qed.
#[local] Hint Resolve wr_set_nst : wr.
Lemma wr_set_parent v s : wr s (set_parent v s). Proof. now apply wr_same. Qed.
#[local] Hint Resolve wr_set_parent : wr.
Lemma wr_set_routes v s : wr s (set_routes v s). Proof. now apply wr_same. Qed.
#[local] Hint Resolve wr_set_routes : wr.
Lemma wr_set_fl_act v s : wr s (set_fl_act v s). Proof. now apply wr_same. Qed.
#[local] Hint Resolve wr_set_fl_act : wr.
Lemma wr_set_fl_preg v s : wr s (set_fl_preg v s). Proof. now apply wr_same. Qed.
#[local] Hint Resolve wr_set_fl_preg : wr.
Lemma wr_set_fl_shut v s : wr s (set_fl_shut v s). Proof. now apply wr_same. Qed.
#[local] Hint Resolve wr_set_fl_shut : wr.
Lemma wr_set_popr v s : wr s (set_popr v s). Proof. now apply wr_same. Qed.
#[local] Hint Resolve wr_set_popr : wr.
Lemma wr_set_connecting v s : wr s (set_connecting v s). Proof. now apply wr_same. Qed.
#[local] Hint Resolve wr_set_connecting : wr.
Lemma wr_set_pings v s : wr s (set_pings v s). Proof. now apply wr_same. Qed.
#[local] Hint Resolve wr_set_pings : wr.
Lemma wr_set_pend v s : wr s (set_pend v s). Proof. now apply wr_same. Qed.
#[local] Hint Resolve wr_set_pend : wr.
Lemma wr_set_lpend v s : wr s (set_lpend v s). Proof. now apply wr_same. Qed.
#[local] Hint Resolve wr_set_lpend : wr.
Lemma wr_set_gce v s : wr s (set_gce v s). Proof. now apply wr_same. Qed.
#[local] Hint Resolve wr_set_gce : wr.
Lemma wr_set_gcc v s : wr s (set_gcc v s). Proof. now apply wr_same. Qed.
#[local] Hint Resolve wr_set_gcc : wr.
Lemma wr_set_procs v s : wr s (set_procs v s). Proof. now apply wr_same. Qed.
#[local] Hint Resolve wr_set_procs : wr.
Lemma wr_set_seqn v s : wr s (set_seqn v s). Proof. now apply wr_same. Qed.
#[local] Hint Resolve wr_set_seqn : wr.
Lemma wr_set_qdata v s : wr s (set_qdata v s). Proof. now apply wr_same. Qed.
#[local] Hint Resolve wr_set_qdata : wr.
Lemma wr_set_qcmd v s : wr s (set_qcmd v s). Proof. now apply wr_same. Qed.
#[local] Hint Resolve wr_set_qcmd : wr.
Lemma wr_set_orc v s : wr s (set_orc v s). Proof. now apply wr_same. Qed.
#[local] Hint Resolve wr_set_orc : wr.
Lemma wr_set_salts v s : wr s (set_salts v s). Proof. now apply wr_same. Qed.
#[local] Hint Resolve wr_set_salts : wr.
Lemma wr_set_cs v s : wr s (set_cs v s). Proof. now apply wr_same. Qed.
#[local] Hint Resolve wr_set_cs : wr.
Lemma wr_set_nextc v s : wr s (set_nextc v s). Proof. now apply wr_same. Qed.
#[local] Hint Resolve wr_set_nextc : wr.
Lemma wr_set_self v s : wr s (set_self v s). Proof. now apply wr_same. Qed.
#[local] Hint Resolve wr_set_self : wr.
Lemma wr_set_fl_reset v s : wr s (set_fl_reset v s). Proof. now apply wr_same. Qed.
#[local] Hint Resolve wr_set_fl_reset : wr.
Lemma wr_set_fl_gcreset v s : wr s (set_fl_gcreset v s). Proof. now apply wr_same. Qed.
#[local] Hint Resolve wr_set_fl_gcreset : wr.
Lemma wr_set_fl_self v s : wr s (set_fl_self v s). Proof. now apply wr_same. Qed.
#[local] Hint Resolve wr_set_fl_self : wr.
Lemma wr_set_fl_gce v s : wr s (set_fl_gce v s). Proof. now apply wr_same. Qed.
#[local] Hint Resolve wr_set_fl_gce : wr.
Lemma wr_set_fl_gcc v s : wr s (set_fl_gcc v s). Proof. now apply wr_same. Qed.
#[local] Hint Resolve wr_set_fl_gcc : wr.
Lemma wr_set_sec v s : wr s (set_sec v s). Proof. now apply wr_same. Qed.
#[local] Hint Resolve wr_set_sec : wr.
Lemma wr_on_e e f s : (forall d, d_fault d <= d_fault (f d) /\ (d_ping d <> 0 -> d_ping (f d) <> 0)) -> wr s (on_e e f s).
Proof.
  intro F. split; [reflexivity|]. split; [apply N.le_refl|]. intros _. rewrite es_on_e. destruct (N.eqb_spec e0 e) as [->|]; [apply F|]. split; [apply N.le_refl|trivial].
Qed.
Ltac wone := apply wr_on_e; intro d; cbn [d_fault d_ping set_d_ctrl set_d_data set_d_listen set_d_lfd set_d_timer set_d_created set_d_fault set_d_ping];
  first [split; [apply N.le_refl|intro; assumption] | split; [apply N.le_add_r|intro; assumption]].
#[local] Hint Extern 1 (wr _ (on_e _ _ _)) => wone : wr.
Lemma wr_on_c c f s : wr s (on_c c f s). Proof. wframe. Qed.
#[local] Hint Resolve wr_on_c : wr.
Lemma wr_emit t s : wr s (emit t s). Proof. wframe. Qed.
#[local] Hint Resolve wr_emit : wr.
Lemma wr_rm_timer c s : wr s (rm_timer c s). Proof. wframe. Qed.
#[local] Hint Resolve wr_rm_timer : wr.
Lemma wr_set_status c v s : wr s (set_status c v s). Proof. wframe. Qed.
#[local] Hint Resolve wr_set_status : wr.
Lemma wr_shutdown z s : wr s (shutdown z s). Proof. wframe. Qed.
#[local] Hint Resolve wr_shutdown : wr.
Lemma wr_fatal_shutdown z s : wr s (fatal_shutdown z s). Proof. wframe. Qed.
#[local] Hint Resolve wr_fatal_shutdown : wr.
Lemma wr_on_actived  s : wr s (on_actived  s). Proof. wframe. Qed.
#[local] Hint Resolve wr_on_actived : wr.
Lemma wr_on_disconnect c s : wr s (on_disconnect c s). Proof. wframe. Qed.
#[local] Hint Resolve wr_on_disconnect : wr.
Lemma wr_rm_proc a s : wr s (rm_proc a s). Proof. wframe. Qed.
#[local] Hint Resolve wr_rm_proc : wr.
Lemma wr_add_proc c s : wr s (add_proc c s). Proof. wframe. Qed.
#[local] Hint Resolve wr_add_proc : wr.
Lemma wr_add_timer c s : wr s (add_timer c s). Proof. wframe. Qed.
#[local] Hint Resolve wr_add_timer : wr.
Lemma wr_gc_conn c s : wr s (gc_conn c s). Proof. wframe. Qed.
#[local] Hint Resolve wr_gc_conn : wr.
Lemma wr_gc_ep e s : wr s (gc_ep e s). Proof. wframe. Qed.
#[local] Hint Resolve wr_gc_ep : wr.
Lemma wr_disconnect c s : wr s (disconnect c s). Proof. wframe. Qed.
#[local] Hint Resolve wr_disconnect : wr.
Lemma wr_conn_close c s : wr s (conn_close c s). Proof. wframe. Qed.
#[local] Hint Resolve wr_conn_close : wr.
Lemma wr_clear_ping e s : wr s (clear_ping e s). Proof. unfold clear_ping. wgo. Qed.
#[local] Hint Resolve wr_clear_ping : wr.
Lemma wr_insert_ping e s : wr s (insert_ping e s). Proof. unfold insert_ping. wgo. Qed.
#[local] Hint Resolve wr_insert_ping : wr.
Lemma wr_add_ping e s : wr s (add_ping e s). Proof. unfold add_ping. wgo. Qed.
#[local] Hint Resolve wr_add_ping : wr.
Lemma wr_ep_reset b g e s : wr s (ep_reset b g e s).
Proof.
  apply wr_es; [apply (keeps (f := cf) (g := ep_reset b g e))|apply (keeps (f := nexte) (g := ep_reset b g e))|]. intro x. rewrite es_ep_reset. destruct (N.eqb_spec x e) as [->|]; split; reflexivity.
Qed.
Lemma wr_conn_fin c s : wr s (conn_fin c s). Proof. wframe. Qed.
#[local] Hint Resolve wr_conn_fin : wr.
#[local] Hint Resolve wr_ep_reset : wr.
Lemma wr_conn_reset c s : wr s (conn_reset c s). Proof. unfold conn_reset. wgo. Qed.
#[local] Hint Resolve wr_conn_reset : wr.
Lemma wr_ep_drop e s : wr s (ep_drop e s). Proof. unfold ep_drop. wgo. Qed.
#[local] Hint Resolve wr_ep_drop : wr.
Lemma wr_conn_drop c s : wr s (conn_drop c s). Proof. unfold conn_drop. wgo. Qed.
#[local] Hint Resolve wr_conn_drop : wr.
Lemma wr_add_listen e a s : wr s (add_listen e a s).
Proof.
  unfold add_listen. destruct a; [apply wr_refl|]. apply wr_on_e. intro d. destruct (is_simplex _); cbn; (split; [apply N.le_refl|trivial]).
Qed.
#[local] Hint Resolve wr_add_listen : wr.
Lemma wr_written c z n s : wr s (written c z n s). Proof. wframe. Qed.
#[local] Hint Resolve wr_written : wr.
Lemma wr_conn_fault c s : wr s (conn_fault c s). Proof. unfold conn_fault. wgo. Qed.
#[local] Hint Resolve wr_conn_fault : wr.
Lemma wr_conn_create  s : wr s (fst (conn_create  s)). Proof. wframe. Qed.
#[local] Hint Resolve wr_conn_create : wr.
Lemma wr_ep_create i u p h s : wr s (fst (ep_create i u p h s)).
Proof.
  unfold ep_create. cbn [fst]. refine (wr_trans _ _ _ _ (wr_insert_ping _ _)). split; [reflexivity|]. split; [cbn; lia|]. intro L. cbn. unfold upd.
  destruct (N.eqb_spec e0 (nexte s)) as [E|]; [rewrite E in L; now apply N.lt_irrefl in L|]. split; [apply N.le_refl|trivial].
Qed.
#[local] Hint Resolve wr_ep_create : wr.
Lemma wr_add_connection e c b s : wr s (fst (add_connection e c b s)). Proof. unfold add_connection. wgo. Qed.
#[local] Hint Resolve wr_add_connection : wr.
Lemma wr_created e s : wr s (fst (created e s)). Proof. unfold created. wgo. Qed.
#[local] Hint Resolve wr_created : wr.
Lemma wr_alloc_seq  s : wr s (fst (alloc_seq  s)). Proof. wframe. Qed.
#[local] Hint Resolve wr_alloc_seq : wr.
Lemma wr_take_orc  s : wr s (fst (take_orc  s)). Proof. wframe. Qed.
#[local] Hint Resolve wr_take_orc : wr.
Lemma wr_take_salt  s : wr s (fst (take_salt  s)). Proof. wframe. Qed.
#[local] Hint Resolve wr_take_salt : wr.
Lemma wr_push c m s : wr s (fst (push c m s)). Proof. wframe. Qed.
#[local] Hint Resolve wr_push : wr.
Lemma wr_send_on c m s : wr s (fst (send_on c m s)). Proof. wframe. Qed.
#[local] Hint Resolve wr_send_on : wr.
Lemma wr_add_endpoint e s : wr s (fst (add_endpoint e s)). Proof. unfold add_endpoint. wgo. Qed.
#[local] Hint Resolve wr_add_endpoint : wr.
Lemma wr_remove_endpoint i x s : wr s (fst (remove_endpoint i x s)). Proof. wframe. Qed.
#[local] Hint Resolve wr_remove_endpoint : wr.
Lemma wr_ep_fault e s : wr s (fst (ep_fault e s)). Proof. unfold ep_fault. wgo. Qed.
#[local] Hint Resolve wr_ep_fault : wr.

Lemma wr_gen_keys ts : forall s, wr s (fst (gen_keys ts s)).
Proof. induction ts as [|t r IH]; intro s; cbn [gen_keys]; wgo. Qed.
#[local] Hint Resolve wr_gen_keys : wr.
Lemma wr_send_reg rsp c z q s : wr s (fst (send_reg rsp c z q s)). Proof. unfold send_reg. wgo. Qed.
#[local] Hint Resolve wr_send_reg : wr.
Lemma wr_send_ping c q s : wr s (fst (send_ping c q s)). Proof. unfold send_ping. wgo. Qed.
#[local] Hint Resolve wr_send_ping : wr.
Lemma wr_on_new_connection c s : wr s (on_new_connection c s). Proof. unfold on_new_connection. wgo. Qed.
#[local] Hint Resolve wr_on_new_connection : wr.
Lemma wr_number m s : wr s (fst (number m s)). Proof. unfold number. wgo. Qed.
#[local] Hint Resolve wr_number : wr.
Lemma wr_post d i m s : wr s (fst (post d i m s)). Proof. unfold post. wgo. Qed.
#[local] Hint Resolve wr_post : wr.
Lemma wr_send_cmd_rsp oc d t z q f s : wr s (fst (send_cmd_rsp oc d t z q f s)). Proof. unfold send_cmd_rsp. wgo. Qed.
#[local] Hint Resolve wr_send_cmd_rsp : wr.
Lemma wr_cmd_req oc h q s : wr s (fst (cmd_req oc h q s)). Proof. unfold cmd_req. wgo. Qed.
#[local] Hint Resolve wr_cmd_req : wr.
Lemma wr_cmd_rsp oc h q s : wr s (fst (cmd_rsp oc h q s)). Proof. unfold cmd_rsp. wgo. Qed.
#[local] Hint Resolve wr_cmd_rsp : wr.
Lemma wr_self_data m s : wr s (self_data m s). Proof. unfold self_data. wgo. Qed.
#[local] Hint Resolve wr_self_data : wr.
Lemma wr_self_cmd m s : wr s (self_cmd m s). Proof. unfold self_cmd. wgo. Qed.
#[local] Hint Resolve wr_self_cmd : wr.
Lemma wr_data_loop n : forall s, wr s (fst (fst (self_data_loop n s))).
Proof. induction n as [|n IH]; intro s; cbn [self_data_loop]; wgo. Qed.
Lemma wr_cmd_loop n : forall s, wr s (fst (self_cmd_loop n s)).
Proof. induction n as [|n IH]; intro s; cbn [self_cmd_loop]; wgo. Qed.
#[local] Hint Resolve wr_data_loop wr_cmd_loop : wr.
Lemma wr_dispatch_self s : wr s (fst (dispatch_self s)).
Proof.
  unfold dispatch_self. destruct (fl_self s) eqn:F; [apply wr_refl|]. cbv zeta.
  set (n := if x_loop _ =? 0 then _ else _). clearbody n.
  pose proof (wr_data_loop n (set_fl_self true s)) as K1.
  destruct (self_data_loop n (set_fl_self true s)) as [[s1 r] k]. cbn [fst] in K1.
  pose proof (wr_cmd_loop r s1) as K2. destruct (self_cmd_loop r s1) as [s2 k2]. cbn [fst] in *.
  refine (wr_trans _ _ _ (wr_set_fl_self true s) (wr_trans _ _ _ K1 (wr_trans _ _ _ K2 (wr_set_fl_self false s2)))).
Qed.
#[local] Hint Resolve wr_dispatch_self : wr.
Lemma wr_send_to d i m s : wr s (fst (send_to d i m s)). Proof. unfold send_to. wgo. Qed.
#[local] Hint Resolve wr_send_to : wr.
Lemma wr_conn_connect c a s : wr s (fst (conn_connect c a s)). Proof. unfold conn_connect. wgo. Qed.
#[local] Hint Resolve wr_conn_connect : wr.
Lemma wr_connect a s : wr s (fst (connect a s)). Proof. unfold connect. wgo. Qed.
#[local] Hint Resolve wr_connect : wr.
Lemma wr_connect_ep a e s : wr s (fst (connect_ep a e s)). Proof. unfold connect_ep. wgo. Qed.
#[local] Hint Resolve wr_connect_ep : wr.
Lemma wr_listen_cb c z s : wr s (listen_cb c z s). Proof. unfold listen_cb. wgo. Qed.
#[local] Hint Resolve wr_listen_cb : wr.
Lemma wr_conn_listen c a s : wr s (fst (conn_listen c a s)). Proof. unfold conn_listen. wgo. Qed.
#[local] Hint Resolve wr_conn_listen : wr.
Lemma wr_listen a s : wr s (fst (listen a s)). Proof. unfold listen. wgo. Qed.
#[local] Hint Resolve wr_listen : wr.
Lemma wr_connected_cb c z s : wr s (connected_cb c z s). Proof. unfold connected_cb. wgo. Qed.
#[local] Hint Resolve wr_connected_cb : wr.
Lemma wr_listened c z s : wr s (listened c z s). Proof. unfold listened. wgo. Qed.
#[local] Hint Resolve wr_listened : wr.
Lemma wr_accept_failed s : wr s (accept_failed s). Proof. unfold accept_failed. wgo. Qed.
#[local] Hint Resolve wr_accept_failed : wr.
Lemma wr_accepted a s : wr s (accepted a s). Proof. unfold accepted. wgo. Qed.
#[local] Hint Resolve wr_accepted : wr.
Lemma wr_peer_closed c s : wr s (peer_closed c s). Proof. unfold peer_closed. wgo. Qed.
#[local] Hint Resolve wr_peer_closed : wr.
Lemma wr_node_disconnect i s : wr s (fst (node_disconnect i s)). Proof. unfold node_disconnect. wgo. Qed.
#[local] Hint Resolve wr_node_disconnect : wr.
Lemma wr_transfer_rsp h w z s : wr s (fst (transfer_rsp h w z s)). Proof. unfold transfer_rsp. wgo. Qed.
#[local] Hint Resolve wr_transfer_rsp : wr.
Lemma wr_forward r h w f t s : wr s (fst (fst (fst (forward r h w f t s)))). Proof. unfold forward. wgo. Qed.
#[local] Hint Resolve wr_forward : wr.
Lemma wr_connect_sync x y s : wr s (fst (connect_sync x y s)). Proof. unfold connect_sync. wgo. Qed.
#[local] Hint Resolve wr_connect_sync : wr.
Lemma wr_data_req c h w s : wr s (fst (data_req c h w s)). Proof. unfold data_req. wgo. Qed.
#[local] Hint Resolve wr_data_req : wr.
Lemma wr_data_rsp c h w s : wr s (fst (data_rsp c h w s)). Proof. unfold data_rsp. wgo. Qed.
#[local] Hint Resolve wr_data_rsp : wr.
Lemma wr_sync_msg r c h s : wr s (fst (sync_msg r c h s)). Proof. unfold sync_msg. wgo. Qed.
#[local] Hint Resolve wr_sync_msg : wr.
Lemma wr_reg_deny c z q s : wr s (fst (reg_deny c z q s)). Proof. unfold reg_deny. wgo. Qed.
#[local] Hint Resolve wr_reg_deny : wr.
Lemma wr_open_channels e can l : forall has s, wr s (fst (open_channels e can l has s)).
Proof. induction l as [|x r IH]; intros has s; cbn [open_channels]; wgo. Qed.
#[local] Hint Resolve wr_open_channels : wr.
Lemma wr_welcome c e r s : wr s (welcome c e r s). Proof. unfold welcome. wgo. Qed.
#[local] Hint Resolve wr_welcome : wr.
Lemma wr_reg_body c r s : wr s (fst (reg_body c r s)). Proof. unfold reg_body. wgo. Qed.
#[local] Hint Resolve wr_reg_body : wr.
Lemma wr_reg_req c h r s : wr s (fst (reg_req c h r s)). Proof. unfold reg_req. wgo. Qed.
#[local] Hint Resolve wr_reg_req : wr.
Lemma wr_parent_reg_done  s : wr s (parent_reg_done  s). Proof. unfold parent_reg_done. wgo. Qed.
#[local] Hint Resolve wr_parent_reg_done : wr.
Lemma wr_reg_rsp c h r s : wr s (fst (reg_rsp c h r s)). Proof. unfold reg_rsp. wgo. Qed.
#[local] Hint Resolve wr_reg_rsp : wr.
Lemma wr_conn_syn c h a s : wr s (fst (conn_syn c h a s)). Proof. unfold conn_syn. wgo. Qed.
#[local] Hint Resolve wr_conn_syn : wr.
Lemma wr_ping_msg c h t s : wr s (fst (ping_msg c h t s)). Proof. unfold ping_msg. wgo. Qed.
#[local] Hint Resolve wr_ping_msg : wr.
Lemma wr_pong_msg c h t s : k_bind (cs s c) <> Some e0 -> wr s (fst (pong_msg c h t s)).
Proof.
  intro B. unfold pong_msg. cbv zeta. set (s1 := emit _ s). assert (K : wr s s1) by apply wr_emit.
  change (k_bind (cs s1 c)) with (k_bind (cs s c)). clearbody s1. refine (wr_trans _ _ _ K _). clear K.
  destruct (k_bind (cs s c)) as [e|]; [|apply wr_refl]. destruct (_ =? _); [|apply wr_refl]. cbn [fst].
  split; [reflexivity|]. split; [apply N.le_refl|]. intros _. rewrite es_on_e. destruct (N.eqb_spec e0 e) as [->|]; [congruence|]. split; [apply N.le_refl|trivial].
Qed.
Lemma wr_dispatch_msg c m s : k_bind (cs s c) <> Some e0 -> wr s (fst (dispatch_msg c m s)).
Proof.
  intro B. unfold dispatch_msg. cbv zeta.
  destruct (m_body m) as [[]|[]|[]|[]| |[]|]; try (wgo; fail). now apply wr_pong_msg.
Qed.
Lemma wr_fault_of c s : wr s (fault_of c s). Proof. unfold fault_of. wgo. Qed.
#[local] Hint Resolve wr_fault_of : wr.
Lemma wr_on_recv c m s : k_bind (cs s c) <> Some e0 -> k_bind (cs (on_recv c m s) c) <> Some e0 -> wr s (on_recv c m s).
Proof.
  intros B. unfold on_recv. pose proof (wr_dispatch_msg c m s B) as K. destruct (dispatch_msg c m s) as [s1 r]. cbn [fst] in K.
  destruct (r <? 0)%Z; [intros _; refine (wr_trans _ _ _ K (wr_fault_of _ _))|]. cbv zeta. intro B'.
  assert (B1 : k_bind (cs s1 c) <> Some e0).
  { intro E. apply B'. rewrite E. rewrite cs_on_c, N.eqb_refl. cbn. exact E. }
  refine (wr_trans _ _ _ K _). refine (wr_trans _ _ _ _ (wr_on_c _ _ _)).
  destruct (k_bind (cs s1 c)) as [e|]; [|apply wr_refl].
  split; [reflexivity|]. split; [apply N.le_refl|]. intros _. match goal with |- context [es (emit (TGood e) ?q) e0] => change (es (emit (TGood e) q) e0) with (es q e0) end. rewrite es_on_e. destruct (N.eqb_spec e0 e) as [->|]; [congruence|]. split; [apply N.le_refl|trivial].
Qed.
Lemma wr_recv_item c i s : k_bind (cs s c) <> Some e0 -> k_bind (cs (recv_item c i s) c) <> Some e0 -> wr s (recv_item c i s).
Proof.
  destruct i as [z|n|n m]; intros B B'; unfold recv_item in *; [apply wr_fault_of|wgo|]. cbv zeta in *.
  match goal with |- wr s (on_recv c ?m' ?s1) => set (s2 := s1) in *; assert (K : wr s s2) by (subst s2; wgo);
    assert (B2 : k_bind (cs s2 c) <> Some e0) end.
  { subst s2. rewrite cs_on_c, N.eqb_refl. exact B. }
  clearbody s2. refine (wr_trans _ _ _ K _). now apply wr_on_recv.
Qed.
Lemma wr_fold {A} (f : node -> A -> node) : (forall s x, wr s (f s x)) -> forall l s, wr s (fold_left f l s).
Proof. intros F l. induction l as [|x r IH]; intro s; cbn [fold_left]; [apply wr_refl|]. eapply wr_trans; [apply F|apply IH]. Qed.
Lemma wr_sweep n now : forall s, wr s (sweep n now s).
Proof. induction n as [|n IH]; intro s; cbn [sweep]; wgo. Qed.
#[local] Hint Resolve wr_sweep : wr.
Lemma wr_fault_drop h e s : wr s (fst (fault_drop h e s)). Proof. unfold fault_drop. wgo. Qed.
#[local] Hint Resolve wr_fault_drop : wr.
Lemma seq_pos s : snd (alloc_seq s) <> 0.
Proof. unfold alloc_seq. cbn [snd]. destruct (N.eqb_spec (wrap64 (seqn s + 1)) 0); [discriminate|assumption]. Qed.
Lemma wr_set_ping e q s : q <> 0 -> wr s (on_e e (set_d_ping q) s).
Proof. intro Q. apply wr_on_e. intro d. cbn. split; [apply N.le_refl|auto]. Qed.
#[local] Hint Resolve wr_set_ping : wr.
Lemma wr_ping_endpoint h e s : wr s (fst (ping_endpoint h e s)).
Proof.
  unfold ping_endpoint.
  assert (H : wr s (fst (if d_ping (es s e) =? 0 then (s, false) else fault_drop h e s))) by wgo.
  destruct (if d_ping (es s e) =? 0 then _ else _) as [s1 g]. cbn [fst] in H. refine (wr_trans _ _ _ H _). clear H s.
  destruct g; [apply wr_refl|]. destruct (self s1); [|apply wr_refl]. destruct (_ =? _); [apply wr_refl|].
  destruct (ctrl_conn s1 _) as [c|]; [|wgo].
  pose proof (wr_alloc_seq s1) as H. pose proof (seq_pos s1) as Q. destruct (alloc_seq s1) as [s2 q]. cbn [fst snd] in H, Q.
  refine (wr_trans _ _ _ H _). clear H.
  pose proof (wr_send_ping c q s2) as H. destruct (send_ping c q s2) as [s3 r]. cbn [fst] in H. refine (wr_trans _ _ _ H _). clear H.
  destruct (_ <? _)%Z; [wgo|]. cbv zeta. cbn [fst]. refine (wr_trans _ _ _ _ (wr_set_ping _ _ _ Q)).
  destruct (data_conn _ _ _); wgo.
Qed.
#[local] Hint Resolve wr_ping_endpoint : wr.
Lemma wr_idle_out n e s : wr s (fst (idle_out n e s)). Proof. unfold idle_out. wgo. Qed.
#[local] Hint Resolve wr_idle_out : wr.
Lemma wr_parent_op n s : wr s (parent_op n s). Proof. unfold parent_op. wgo. Qed.
#[local] Hint Resolve wr_parent_op : wr.
Lemma wr_release nx s : wr s (release nx s). Proof. unfold release. wgo. Qed.
#[local] Hint Resolve wr_release : wr.
Lemma wr_ping_loop now n : forall nx s s', ping_loop n now nx s = Some s' -> wr s s'.
Proof.
  induction n as [|n IH]; intros nx s s' X; cbn [ping_loop] in X; [discriminate|].
  destruct (pings s) as [|[t e1] l]; [injection X as <-; apply wr_release|].
  destruct (now <? t); [injection X as <-; apply wr_release|]. cbv zeta in X.
  set (e := match nx with Some e => e | None => e1 end) in X.
  pose proof (wr_idle_out now e s) as K. destruct (idle_out now e s) as [s1 out]. cbn [fst] in K. wmvn K s2.
  destruct out.
  - apply IH in X. refine (wr_trans _ _ _ _ X). wgo.
  - set (s3 := if match parent s2 with Some p => e_ref p =? e | None => false end then s2 else fst (ping_endpoint true e s2)) in X.
    assert (K : wr s2 s3) by (unfold s3; destruct (match parent s2 with Some p => _ | None => _ end); wgo).
    clearbody s3. wmvn K s5.
    set (s4 := add_ping (d_ep (es s5 e)) s5) in X.
    assert (K : wr s5 s4) by (unfold s4; wgo). clearbody s4. wmvn K s6.
    destruct (pings s6) as [|[t2 e2] r]; [injection X as <-; wgo|].
    destruct (now <? t2); [injection X as <-; wgo|].
    destruct (negb (t2 =? t)); [|destruct (e2 =? e)]; apply IH in X; refine (wr_trans _ _ _ _ X); wgo.
Qed.
Lemma wr_gc_one s x : wr s (gc_one s x).
Proof. unfold gc_one. wgo. Qed.
Lemma wr_drop_ep s e : wr s (drop_ep s e). Proof. apply wr_ep_drop. Qed.
Lemma wr_collect s : wr s (collect s).
Proof.
  unfold collect. cbv zeta.
  set (s1 := match gce s with [] => s | _ => _ end).
  assert (K : wr s s1).
  { subst s1. destruct (gce s) as [|x l]; [apply wr_refl|]. set (l1 := x :: l). clearbody l1.
    refine (wr_trans _ _ _ _ (wr_set_fl_gce _ _)). refine (wr_trans _ _ _ _ (wr_fold drop_ep wr_drop_ep _ _)).
    refine (wr_trans _ _ _ _ (wr_set_gce _ _)). refine (wr_trans _ _ _ _ (wr_fold gc_one wr_gc_one _ _)).
    refine (wr_trans _ _ _ _ (wr_set_fl_gce _ _)). apply wr_set_gce. }
  clearbody s1. refine (wr_trans _ _ _ K _). destruct (gcc s1) as [|c l]; [apply wr_refl|]. set (l1 := c :: l). clearbody l1.
  refine (wr_trans _ _ _ _ (wr_set_fl_gcc _ _)). refine (wr_trans _ _ _ _ (wr_fold (fun s c => conn_drop c s) (fun s c => wr_conn_drop c s) _ _)).
  refine (wr_trans _ _ _ _ (wr_set_gcc _ _)). apply wr_set_fl_gcc.
Qed.
Lemma wr_send_data a b c d e s : wr s (fst (send_data a b c d e s)). Proof. unfold send_data. wgo. Qed.
#[local] Hint Resolve wr_send_data : wr.
Lemma wr_send_custom a b c s : wr s (fst (send_custom a b c s)). Proof. unfold send_custom. wgo. Qed.
#[local] Hint Resolve wr_send_custom : wr.
Lemma wr_drain n : forall s, wr s (drain n s).
Proof.
  induction n as [|n IH]; intro s; cbn [drain]; [apply wr_refl|]. pose proof (wr_dispatch_self s) as K.
  destruct (dispatch_self s) as [s1 k]. cbn [fst] in K. destruct k; [exact K|]. exact (wr_trans _ _ _ K (IH s1)).
Qed.
Lemma wr_drop_connecting n : forall s, wr s (drop_connecting n s).
Proof. induction n as [|n IH]; intro s; cbn [drop_connecting]; wgo. Qed.
Lemma wr_finish_connects l : forall s, wr s (finish_connects l s).
Proof. induction l as [|c l IH]; intro s; cbn [finish_connects]; wgo. Qed.
Lemma wr_finish_listens l : forall s, wr s (finish_listens l s).
Proof. induction l as [|c l IH]; intro s; cbn [finish_listens]; wgo. Qed.
#[local] Hint Resolve wr_drain wr_drop_connecting wr_finish_connects wr_finish_listens : wr.
Lemma wr_reset s : wr s (reset s).
Proof.
  unfold reset. destruct (fl_reset s); [apply wr_refl|]. cbv zeta.
  refine (wr_trans _ _ _ (wr_set_fl_reset true s) _). set (s0 := set_fl_reset true s). clearbody s0.
  refine (wr_trans _ _ _ (wr_emit TBegin s0) _). set (s1 := emit TBegin s0). clearbody s1.
  match goal with |- context [drain ?n s1] => refine (wr_trans _ _ _ (wr_drain n s1) _); set (s2 := drain n s1); clearbody s2 end.
  refine (wr_trans _ _ _ (wr_fold (fun s p => conn_reset (snd p) s) (fun s p => wr_conn_reset (snd p) s) (procs s2) s2) _).
  set (s3 := fold_left _ _ s2). clearbody s3.
  refine (wr_trans _ _ _ (wr_set_procs [] s3) _). set (s4 := set_procs [] s3). clearbody s4.
  set (s5 := match parent s4 with Some p => _ | None => _ end). assert (K : wr s4 s5) by (subst s5; wgo).
  clearbody s5. refine (wr_trans _ _ _ K _). clear K.
  refine (wr_trans _ _ _ (wr_set_routes [] s5) _).
  refine (wr_trans _ _ _ (wr_fold (fun s e => emit (TRemoved e) s) (fun s e => wr_emit _ s) (map (fun p => e_ref (snd p)) (routes s5)) _) _).
  set (s6 := fold_left (fun s e => emit _ s) _ _). clearbody s6.
  refine (wr_trans _ _ _ (wr_fold drop_ep wr_drop_ep (map (fun p => e_ref (snd p)) (routes s5)) s6) _).
  set (s7 := fold_left drop_ep _ s6). clearbody s7.
  refine (wr_trans _ _ _ (wr_drop_connecting (length (connecting s7)) s7) _). set (s8 := drop_connecting _ s7). clearbody s8.
  set (s9 := match self s8 with Some p => _ | None => _ end). assert (K : wr s8 s9) by (subst s9; wgo).
  clearbody s9. refine (wr_trans _ _ _ K _). clear K.
  refine (wr_trans _ _ _ (wr_set_fl_gcreset true s9) _). set (s10 := set_fl_gcreset true s9). clearbody s10.
  refine (wr_trans _ _ _ (wr_set_gce [] s10) _).
  refine (wr_trans _ _ _ (wr_fold drop_ep wr_drop_ep (map e_ref (gce s10)) (set_gce [] s10)) _).
  set (s11 := fold_left drop_ep _ _). clearbody s11.
  refine (wr_trans _ _ _ (wr_set_gcc [] s11) _). set (s12 := set_gcc [] s11). clearbody s12.
  assert (F : forall s (p : N * N), wr s (clear_ping (snd p) (ep_reset None false (snd p) s))) by (intros; wgo).
  refine (wr_trans _ _ _ (wr_fold _ F (pings s12) s12) _). set (s13 := fold_left _ _ s12). clearbody s13.
  refine (wr_trans _ _ _ (wr_set_pings [] s13) _). set (s14 := set_pings [] s13). clearbody s14.
  refine (wr_trans _ _ _ (wr_finish_connects (pend s14) s14) _). set (s15 := finish_connects _ s14). clearbody s15.
  refine (wr_trans _ _ _ (wr_finish_listens (lpend s15) s15) _). set (s16 := finish_listens _ s15). clearbody s16.
  wgo.
Qed.
#[local] Hint Resolve wr_reset wr_collect : wr.
Lemma wr_stop s : wr s (stop_if_shut s). Proof. unfold stop_if_shut. wgo. Qed.
#[local] Hint Resolve wr_stop : wr.
Lemma wr_start n s : wr s (fst (start n s)). Proof. unfold start. wgo. Qed.
Lemma wr_before now s : wr s (parent_op now (sweep (length (connecting (if sec s <? now then set_sec now s else s))) now (if sec s <? now then set_sec now s else s))).
Proof.
  set (s1 := if sec s <? now then set_sec now s else s). assert (K : wr s s1) by (subst s1; wgo). clearbody s1.
  refine (wr_trans _ _ _ K _). wgo.
Qed.
Lemma wr_proc n now s s' : proc n now [] s = Some s' -> wr s s'.
Proof.
  unfold proc. cbv zeta. cbn [fold_left]. set (s1 := if sec s <? now then set_sec now s else s). assert (K : wr s s1) by (subst s1; wgo). clearbody s1.
  destruct (nst s1); [intros [= <-]; exact K|..]; (destruct (fl_shut s1); [intros [= <-]; refine (wr_trans _ _ _ K _); wgo|];
    match goal with |- context [parent_op now ?t] => assert (K1 : wr s1 (parent_op now t)) by wgo; set (s2 := parent_op now t) in *; clearbody s2 end;
    destruct (ping_loop n now None s2) as [s3|] eqn:L; [|discriminate]; intros [= <-]; apply wr_ping_loop in L;
    refine (wr_trans _ _ _ K (wr_trans _ _ _ K1 (wr_trans _ _ _ L _))); wgo).
Qed.
(** Nothing arrives from the endpoint. *)
Definition unheard (ev : event) (s s' : node) : Prop :=
  match ev with
  | EInit _ _ => False
  | EProc _ feed => feed = []
  | EPoll l => l = []
  | EIo (IRecv c _) => k_bind (cs s c) <> Some e0 /\ k_bind (cs s' c) <> Some e0
  | _ => True
  end.
Lemma wr_step n ev s s' : step n ev s = Some s' -> unheard ev s s' -> wr s s'.
Proof.
  unfold step, step_ret. destruct ev as [| | | | | | | | | |now feed|l|i|]; cbn [option_map]; intros E U.
  - contradiction.
  - injection E as <-. apply wr_start.
  - injection E as <-. apply wr_listen.
  - injection E as <-. apply wr_connect.
  - injection E as <-. wgo.
  - injection E as <-. wgo.
  - injection E as <-. wgo.
  - injection E as <-. wgo.
  - injection E as <-. wgo.
  - injection E as <-. wgo.
  - cbn in U. subst feed. destruct (proc n now [] s) as [s1|] eqn:P; [|discriminate]. injection E as <-. eapply wr_proc; eauto.
  - cbn in U. subst l. injection E as <-. unfold poll. cbn [fold_left fst]. wgo.
  - injection E as <-. cbn [fst] in *. unfold io_step in *. destruct (nst s); [apply wr_refl|..];
      (destruct i as [| | | | |c j|]; try (wgo; fail); cbn [unheard] in U; destruct (k_kind (cs s c)); try apply wr_refl; apply wr_recv_item; apply U).
  - injection E as <-. wgo.
Qed.
End Weary.
