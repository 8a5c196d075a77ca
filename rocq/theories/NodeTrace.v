(** Which entries an operation adds to the trace of a node. *)
From Verif Require Import Base Subnet Route Address NodeTypes NodeConn NodeCore NodeMsg Node
  NodeFrame NodeReset NodeInv NodeKeep NodeSteps NodeReach NodeSpec NodeLog.
Local Open Scope N_scope.
Ltac Zify.zify_post_hook ::= idtac.

Definition adds (P : tr -> Prop) (s s' : node) : Prop := exists l, log s' = l ++ log s /\ Forall P l.
Lemma adds_refl P s : adds P s s. Proof. exists []. split; [reflexivity|constructor]. Qed.
Lemma adds_trans P s1 s2 s3 : adds P s1 s2 -> adds P s2 s3 -> adds P s1 s3.
Proof.
  intros (l1 & E1 & F1) (l2 & E2 & F2). exists (l2 ++ l1). rewrite E2, E1, app_assoc. split; [reflexivity|]. now apply Forall_app.
Qed.
Lemma adds_same P s s' : log s' = log s -> adds P s s'.
Proof. intro E. exists []. split; [exact E|constructor]. Qed.
Lemma adds_emit (P : tr -> Prop) t s : P t -> adds P s (emit t s).
Proof. intro Q. exists [t]. split; [reflexivity|now constructor]. Qed.
Lemma adds_impl (P Q : tr -> Prop) s s' : (forall t, P t -> Q t) -> adds P s s' -> adds Q s s'.
Proof. intros H (l & E & F). exists l. split; [exact E|]. now apply (Forall_impl Q H). Qed.
Lemma adds_push (P : tr -> Prop) c m s : (forall r, P (TSend c m (x_size (cf s) m) r)) -> adds P s (fst (push c m s)).
Proof.
  intro H. destruct (push_log c m s) as [L|[r L]]; [now apply adds_same|].
  exists [TSend c m (x_size (cf s) m) r]. split; [exact L|]. now constructor.
Qed.
Lemma adds_send_on (P : tr -> Prop) c m s : (forall r, P (TSend c m (x_size (cf s) m) r)) -> adds P s (fst (send_on c m s)).
Proof. intro H. unfold send_on. destruct (_ <? _); [apply adds_refl|]. now apply adds_push. Qed.

(** Entries that neither hand a data message, a ping or a command of a peer to the user
    nor send a data message. *)
Definition is_data (m : msg) : bool := match m_body m with BData _ _ => true | _ => false end.
Definition ordinary (t : tr) : Prop :=
  match t with TSend _ m _ _ => is_data m = false | TRecv _ _ _ | TAnswer _ _ _ | TPing _ _ | TPong _ _ | TCmd (Some _) _ _ => False | _ => True end.
Definition quiet : node -> node -> Prop := adds ordinary.
Lemma quiet_refl s : quiet s s. Proof. apply adds_refl. Qed.
Lemma quiet_trans s1 s2 s3 : quiet s1 s2 -> quiet s2 s3 -> quiet s1 s3. Proof. apply adds_trans. Qed.
Lemma quiet_same s s' : log s' = log s -> quiet s s'. Proof. apply adds_same. Qed.
Lemma quiet_soft s s' : soft s s' -> quiet s s'.
Proof.
  intros [(l & E & F) _]. exists l. split; [exact E|]. eapply Forall_impl; [|exact F]. intros []; cbn; trivial; discriminate.
Qed.

Create HintDb qt discriminated.
#[export] Hint Constants Opaque : qt.
#[export] Hint Variables Opaque : qt.
Ltac qleaf := solve [eauto 3 with qt | apply quiet_same; reflexivity].
Ltac q1 :=
  cbv beta;
  lazymatch goal with
  | |- quiet ?s ?s => apply quiet_refl
  | |- quiet ?s (fst (let x := ?e in @?b x)) => q_let s e ltac:(fun e' => change (quiet s (fst (b e'))))
  | |- quiet ?s (let x := ?e in @?b x) => q_let s e ltac:(fun e' => change (quiet s (b e')))
  | |- quiet ?s (fst (fst (let x := ?e in @?b x))) => q_let s e ltac:(fun e' => change (quiet s (fst (fst (b e')))))
  | |- quiet ?s (fst (fst (fst (let x := ?e in @?b x)))) => q_let s e ltac:(fun e' => change (quiet s (fst (fst (fst (b e'))))))
  | |- quiet ?s (fst (fst (fst (match ?x with _ => _ end)))) => q_case s x
  | |- quiet ?s (fst (fst (match ?x with _ => _ end))) => q_case s x
  | |- quiet ?s (fst (match ?x with _ => _ end)) => q_case s x
  | |- quiet ?s (match ?x with _ => _ end) => q_case s x
  | |- quiet ?s (fst (fst (fst (?x, ?y)))) => change (quiet s (fst (fst x)))
  | |- quiet ?s (fst (fst (?x, ?y))) => change (quiet s (fst x))
  | |- quiet ?s (fst (?x, ?y)) => change (quiet s x)
  | |- quiet ?s (fst (fst (fst (?h ?t)))) => q_at s t
  | |- quiet ?s (fst (fst (?h ?t))) => q_at s t
  | |- quiet ?s (fst (?h ?t)) => q_at s t
  | |- quiet ?s (?g ?t) => q_at s t
  end
with q_mv H :=
  lazymatch type of H with
  | quiet ?s ?s1 =>
      refine (quiet_trans s s1 _ H _); clear H;
      let v := fresh "s" in set (v := s1) in *; clearbody v
  end
with q_at s t :=
  first [ constr_eq s t; qleaf
        | let H := fresh in assert (H : quiet s t) by (repeat q1); q_mv H; qleaf ]
with q_let s e k :=
  lazymatch type of e with
  | node =>
      first [ constr_eq s e; k s; cbv beta
            | let H := fresh in assert (H : quiet s e) by (repeat q1); k e; cbv beta; q_mv H ]
  | _ => let v := fresh in set (v := e); k v; cbv beta; clearbody v
  end
with q_case s x :=
  lazymatch type of x with
  | (node * _)%type =>
      let H := fresh in assert (H : quiet s (fst x)) by (repeat q1);
      let E := fresh "E" in destruct x as [? ?] eqn:E; cbn [fst] in H; clear E; q_mv H
  | (node * _ * _)%type =>
      let H := fresh in assert (H : quiet s (fst (fst x))) by (repeat q1);
      let E := fresh "E" in destruct x as [[? ?] ?] eqn:E; cbn [fst] in H; clear E; q_mv H
  | _ => let E := fresh "E" in destruct x eqn:E in |- *
  end.
Ltac qgo := repeat q1.

Lemma qt_emit t s : ordinary t -> quiet s (emit t s). Proof. apply adds_emit. Qed.
#[export] Hint Resolve quiet_refl : qt.
#[export] Hint Extern 1 (quiet ?s (emit ?t ?s)) => (apply qt_emit; exact Logic.I) : qt.
Lemma qt_creset c s : quiet s (conn_reset c s). Proof. apply quiet_soft, soft_conn_reset. Qed.
Lemma qt_ereset b g e s : quiet s (ep_reset b g e s). Proof. apply quiet_soft, soft_ep_reset. Qed.
Lemma qt_addconn e c b s : quiet s (fst (add_connection e c b s)). Proof. apply quiet_soft, soft_addconn. Qed.
Lemma qt_status c v s : quiet s (set_status c v s). Proof. apply quiet_soft, soft_set_status. Qed.
Lemma qt_epdrop e s : quiet s (ep_drop e s). Proof. unfold ep_drop. destruct (_ : bool); [apply quiet_refl|apply qt_ereset]. Qed.
Lemma qt_conndrop c s : quiet s (conn_drop c s). Proof. unfold conn_drop. destruct (_ : bool); [apply quiet_refl|apply qt_creset]. Qed.
Lemma qt_keeps g s : Keeps log g -> quiet s (g s). Proof. intro K. apply quiet_same, keeps. Qed.
Lemma qt_keeps2 {B} (h : node -> node * B) s : Keeps2 log h -> quiet s (fst (h s)). Proof. intro K. apply quiet_same. exact (keeps2 (f := log) (h := h) s). Qed.
#[export] Hint Resolve qt_creset qt_ereset qt_addconn qt_status qt_epdrop qt_conndrop : qt.
#[export] Hint Extern 4 (quiet ?s (?g ?s)) => (apply (qt_keeps g s); typeclasses eauto) : qt.
#[export] Hint Extern 4 (quiet ?s (fst (?h ?s))) => (apply (qt_keeps2 h s); typeclasses eauto) : qt.
Lemma qt_send_on c m s : is_data m = false -> quiet s (fst (send_on c m s)).
Proof. intro D. apply adds_send_on. intros r. exact D. Qed.
#[export] Hint Extern 2 (quiet ?s (fst (send_on ?c ?m ?s))) => (apply qt_send_on; reflexivity) : qt.
Lemma qt_rmep i ex s : quiet s (fst (remove_endpoint i ex s)).
Proof.
  unfold remove_endpoint, fatal_shutdown, shutdown. qgo.
Qed.
#[export] Hint Resolve qt_rmep : qt.
Lemma qt_ep_fault e s : quiet s (fst (ep_fault e s)). Proof. unfold ep_fault. qgo. Qed.
#[export] Hint Resolve qt_ep_fault : qt.
Lemma qt_conn_fault c s : quiet s (conn_fault c s). Proof. unfold conn_fault. qgo. Qed.
#[export] Hint Resolve qt_conn_fault : qt.
Lemma qt_fault_of c s : quiet s (fault_of c s). Proof. unfold fault_of. qgo. Qed.
#[export] Hint Resolve qt_fault_of : qt.
Lemma log_gen_keys l : forall s, log (fst (gen_keys l s)) = log s.
Proof. intro s. destruct (gen_keys_eq l s) as [v E]. now rewrite E. Qed.
Lemma qt_gen_keys l s : quiet s (fst (gen_keys l s)). Proof. apply quiet_same, log_gen_keys. Qed.
#[export] Hint Resolve qt_gen_keys : qt.
Lemma qt_send_reg r c z q s : quiet s (fst (send_reg r c z q s)). Proof. unfold send_reg. qgo. Qed.
#[export] Hint Resolve qt_send_reg : qt.
Lemma qt_on_new c s : quiet s (on_new_connection c s). Proof. unfold on_new_connection. qgo. Qed.
#[export] Hint Resolve qt_on_new : qt.
Lemma qt_create s : quiet s (fst (conn_create s)). Proof. apply quiet_same. fr1. Qed.
#[export] Hint Resolve qt_create : qt.
Lemma qt_conn_connect c a s : quiet s (fst (conn_connect c a s)). Proof. unfold conn_connect. qgo. Qed.
#[export] Hint Resolve qt_conn_connect : qt.
Lemma qt_connect a s : quiet s (fst (connect a s)). Proof. unfold connect. qgo. Qed.
#[export] Hint Resolve qt_connect : qt.
Lemma qt_connect_ep a e s : quiet s (fst (connect_ep a e s)). Proof. unfold connect_ep. qgo. Qed.
#[export] Hint Resolve qt_connect_ep : qt.
Lemma qt_add_listen e a s : quiet s (add_listen e a s). Proof. unfold add_listen. qgo. Qed.
#[export] Hint Resolve qt_add_listen : qt.
Lemma qt_open e can l : forall has s, quiet s (fst (open_channels e can l has s)).
Proof.
  induction l as [|a l IH]; intros has s; [apply quiet_refl|]. cbn [open_channels].
  destruct a as [|x a]; [apply IH|]. cbv zeta. set (b := x :: a).
  destruct (_ && _); [apply IH|]. destruct (_ && _); [apply IH|]. destruct (_ && _); [apply IH|].
  assert (L : forall s, quiet s (fst (open_channels e can l true (add_listen (e_ref e) b s)))).
  { intro s0. eapply quiet_trans; [apply (qt_add_listen (e_ref e) b s0)|apply IH]. }
  destruct (_ && _); [|apply L].
  pose proof (qt_connect_ep b (e_ref e) s) as C. destruct (connect_ep b (e_ref e) s) as [s1 res]. cbn [fst] in C.
  eapply quiet_trans; [exact C|]. destruct (_ <? _)%Z; [apply IH|apply L].
Qed.
#[export] Hint Resolve qt_open : qt.
Lemma qt_welcome c e r s : quiet s (welcome c e r s). Proof. unfold welcome, gc_ep. qgo. Qed.
#[export] Hint Resolve qt_welcome : qt.
Lemma qt_addep e s : quiet s (fst (add_endpoint e s)). Proof. unfold add_endpoint, on_actived. qgo. Qed.
#[export] Hint Resolve qt_addep : qt.
Lemma qt_reg_body c r s : quiet s (fst (reg_body c r s)). Proof. unfold reg_body, fatal_shutdown, shutdown, gc_ep. qgo. Qed.
#[export] Hint Resolve qt_reg_body : qt.
Lemma qt_reg_req c h r s : quiet s (fst (reg_req c h r s)). Proof. unfold reg_req, reg_deny. qgo. Qed.
#[export] Hint Resolve qt_reg_req : qt.
Lemma qt_reg_rsp c h r s : quiet s (fst (reg_rsp c h r s)).
Proof. unfold reg_rsp, fatal_shutdown, shutdown, gc_ep, on_actived, parent_reg_done. qgo. Qed.
#[export] Hint Resolve qt_reg_rsp : qt.
Lemma qt_conn_syn c h a s : quiet s (fst (conn_syn c h a s)). Proof. unfold conn_syn. qgo. Qed.
#[export] Hint Resolve qt_conn_syn : qt.
Lemma qt_sync b c h s : quiet s (fst (sync_msg b c h s)). Proof. unfold sync_msg. qgo. Qed.
#[export] Hint Resolve qt_sync : qt.
Lemma qt_cmd_answer c d t z q f s : quiet s (fst (send_cmd_rsp (Some c) d t z q f s)). Proof. unfold send_cmd_rsp. qgo. Qed.
#[export] Hint Resolve qt_cmd_answer : qt.
Lemma qt_cmd_rsp c h q s : quiet s (fst (cmd_rsp c h q s)). Proof. unfold cmd_rsp. qgo. Qed.
#[export] Hint Resolve qt_cmd_rsp : qt.
Definition is_ping (m : msg) : bool := match m_body m with BPing _ _ => true | _ => false end.
Definition is_cmd (m : msg) : bool := match m_body m with BCmd false _ => true | _ => false end.
Lemma qt_dispatch c m s : is_data m = false -> is_ping m = false -> is_cmd m = false -> quiet s (fst (dispatch_msg c m s)).
Proof.
  unfold is_data, is_ping, is_cmd, dispatch_msg.
  destruct (m_body m) as [[] w|[] q|r|[] r|a|[] t|]; try discriminate; intros _; try discriminate; intros _; try discriminate; intros _; cbv zeta; qgo.
Qed.
(** What follows the handler. *)
Definition after_recv (c : N) (p : node * Z) : node :=
  let (s, r) := p in
  if (r <? 0)%Z then fault_of c s
  else
    let s := match k_bind (cs s c) with Some e => emit (TGood e) (on_e e (set_d_fault 0) s) | None => s end in
    on_c c (set_k_fault 0) s.
Lemma on_recv_eq c m s : on_recv c m s = after_recv c (dispatch_msg c m s). Proof. reflexivity. Qed.
Lemma qt_after c p : quiet (fst p) (after_recv c p).
Proof. destruct p as [s r]. unfold after_recv. cbn [fst]. qgo. Qed.
