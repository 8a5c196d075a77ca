(** Where undefined behaviour of a node comes from. *)
From Verif Require Import Base Subnet Route Address NodeTypes NodeConn NodeCore NodeMsg Node
  NodeFrame NodeReset NodeInv NodeKeep NodeSteps NodeReach NodeSpec NodeLog NodeTrace.
Local Open Scope N_scope.
Ltac Zify.zify_post_hook ::= idtac.

Section Tame.
(** [P k]: undefined behaviour of kind [k] is accounted for. *)
Variable P : ubk -> Prop.
Definition mild (t : tr) : Prop := match t with TUb k => P k | _ => True end.
(** Undefined behaviour is accounted for, the configuration stays, no channel is added to
    those that are polled. *)
Definition tame (s s' : node) : Prop := adds mild s s' /\ cf s' = cf s /\ incl (procs s') (procs s).
Lemma tame_refl s : tame s s. Proof. split; [apply adds_refl|]. split; [reflexivity|apply incl_refl]. Qed.
Lemma tame_trans s1 s2 s3 : tame s1 s2 -> tame s2 s3 -> tame s1 s3.
Proof.
  intros (A & B & C) (D & E & F). split; [exact (adds_trans _ _ _ _ A D)|]. split; [congruence|]. intros x X. auto.
Qed.
Lemma tame_same s s' : log s' = log s -> cf s' = cf s -> procs s' = procs s -> tame s s'.
Proof. intros A B C. split; [now apply adds_same|]. split; [exact B|]. rewrite C. apply incl_refl. Qed.

Create HintDb tm discriminated.
#[local] Hint Constants Opaque : tm.
#[local] Hint Variables Opaque : tm.
Ltac tleaf := solve [eauto 3 with tm | apply tame_same; reflexivity].
Ltac t1 :=
  cbv beta;
  lazymatch goal with
  | |- tame ?s ?s => apply tame_refl
  | |- tame ?s (fst (let x := ?e in @?b x)) => t_let s e ltac:(fun e' => change (tame s (fst (b e'))))
  | |- tame ?s (let x := ?e in @?b x) => t_let s e ltac:(fun e' => change (tame s (b e')))
  | |- tame ?s (fst (fst (let x := ?e in @?b x))) => t_let s e ltac:(fun e' => change (tame s (fst (fst (b e')))))
  | |- tame ?s (fst (fst (fst (let x := ?e in @?b x)))) => t_let s e ltac:(fun e' => change (tame s (fst (fst (fst (b e'))))))
  | |- tame ?s (fst (fst (fst (match ?x with _ => _ end)))) => t_case s x
  | |- tame ?s (fst (fst (match ?x with _ => _ end))) => t_case s x
  | |- tame ?s (fst (match ?x with _ => _ end)) => t_case s x
  | |- tame ?s (match ?x with _ => _ end) => t_case s x
  | |- tame ?s (fst (fst (fst (?x, ?y)))) => change (tame s (fst (fst x)))
  | |- tame ?s (fst (fst (?x, ?y))) => change (tame s (fst x))
  | |- tame ?s (fst (?x, ?y)) => change (tame s x)
  | |- tame ?s (fst (fst (fst (?h ?t)))) => t_at s t
  | |- tame ?s (fst (fst (?h ?t))) => t_at s t
  | |- tame ?s (fst (?h ?t)) => t_at s t
  | |- tame ?s (?g ?t) => t_at s t
  end
with t_mv H :=
  lazymatch type of H with
  | tame ?s ?s1 =>
      refine (tame_trans s s1 _ H _); clear H;
      let v := fresh "s" in set (v := s1) in *; clearbody v
  end
with t_at s t :=
  first [ constr_eq s t; tleaf
        | let H := fresh in assert (H : tame s t) by (repeat t1); t_mv H; tleaf ]
with t_let s e k :=
  lazymatch type of e with
  | node =>
      first [ constr_eq s e; k s; cbv beta
            | let H := fresh in assert (H : tame s e) by (repeat t1); k e; cbv beta; t_mv H ]
  | _ => let v := fresh in set (v := e); k v; cbv beta; clearbody v
  end
with t_case s x :=
  lazymatch type of x with
  | (node * _)%type =>
      let H := fresh in assert (H : tame s (fst x)) by (repeat t1);
      let E := fresh "E" in destruct x as [? ?] eqn:E; cbn [fst] in H; clear E; t_mv H
  | (node * _ * _)%type =>
      let H := fresh in assert (H : tame s (fst (fst x))) by (repeat t1);
      let E := fresh "E" in destruct x as [[? ?] ?] eqn:E; cbn [fst] in H; clear E; t_mv H
  | (node * _ * _ * _)%type =>
      let H := fresh in assert (H : tame s (fst (fst (fst x)))) by (repeat t1);
      let E := fresh "E" in destruct x as [[[? ?] ?] ?] eqn:E; cbn [fst] in H; clear E; t_mv H
  | _ => let E := fresh "E" in destruct x eqn:E in |- *
  end.
Ltac tgo := repeat t1.


Lemma tm_emit t s : mild t -> tame s (emit t s).
Proof. intro M. split; [now apply adds_emit|]. split; [reflexivity|apply incl_refl]. Qed.
#[local] Hint Resolve tame_refl : tm.
#[local] Hint Extern 1 (tame ?s (emit ?t ?s)) => (apply tm_emit; exact Logic.I) : tm.
Lemma tm_keeps g s : Keeps log g -> Keeps cf g -> Keeps procs g -> tame s (g s).
Proof. intros K1 K2 K3. apply tame_same; apply keeps. Qed.
Lemma tm_keeps2 {B} (h : node -> node * B) s : Keeps2 log h -> Keeps2 cf h -> Keeps2 procs h -> tame s (fst (h s)).
Proof. intros K1 K2 K3. apply tame_same; apply (keeps2 (h := h) s). Qed.
#[local] Hint Extern 4 (tame ?s (?g ?s)) => (apply (tm_keeps g s); typeclasses eauto) : tm.
#[local] Hint Extern 4 (tame ?s (fst (?h ?s))) => (apply (tm_keeps2 h s); typeclasses eauto) : tm.
Lemma tm_rm_proc a s : tame s (rm_proc a s).
Proof. split; [now apply adds_same|]. split; [reflexivity|]. intros p. unfold rm_proc. cbn [procs set_procs]. rewrite filter_In. tauto. Qed.
#[local] Hint Resolve tm_rm_proc : tm.
Lemma tm_shut z s : tame s (shutdown z s). Proof. unfold shutdown. tgo. Qed.
#[local] Hint Resolve tm_shut : tm.
Lemma tm_rm_timer c s : tame s (rm_timer c s). Proof. unfold rm_timer. tgo. Qed.
#[local] Hint Resolve tm_rm_timer : tm.
Lemma tm_status c v s : tame s (set_status c v s). Proof. unfold set_status. tgo. Qed.
#[local] Hint Resolve tm_status : tm.
Lemma tm_ondis c s : tame s (on_disconnect c s). Proof. unfold on_disconnect, fatal_shutdown. tgo. Qed.
#[local] Hint Resolve tm_ondis : tm.
Lemma tm_disconnect c s : tame s (disconnect c s). Proof. unfold disconnect. tgo. Qed.
#[local] Hint Resolve tm_disconnect : tm.
Lemma tm_gcc c s : tame s (gc_conn c s). Proof. unfold gc_conn. tgo. Qed.
Lemma tm_gce c s : tame s (gc_ep c s). Proof. unfold gc_ep. tgo. Qed.
#[local] Hint Resolve tm_gcc tm_gce : tm.
Lemma tm_close c s : tame s (conn_close c s). Proof. unfold conn_close. tgo. Qed.
#[local] Hint Resolve tm_close : tm.
Lemma tm_fin c s : tame s (conn_fin c s). Proof. unfold conn_fin. tgo. Qed.
#[local] Hint Resolve tm_fin : tm.
Lemma tm_reset_in c s : tame s (conn_reset_in c s). Proof. unfold conn_reset_in. tgo. Qed.
#[local] Hint Resolve tm_reset_in : tm.
Lemma tm_fold {A} (f : node -> A -> node) l : (forall s x, tame s (f s x)) -> forall s, tame s (fold_left f l s).
Proof.
  intro H. induction l as [|x l IH]; intro s; [apply tame_refl|]. cbn [fold_left]. exact (tame_trans _ _ _ (H s x) (IH _)).
Qed.
Lemma tm_clear e s : tame s (clear_ping e s). Proof. unfold clear_ping. tgo. Qed.
Lemma tm_insert e s : tame s (insert_ping e s). Proof. unfold insert_ping. tgo. Qed.
#[local] Hint Resolve tm_clear tm_insert : tm.
Lemma tm_addping e s : tame s (add_ping e s). Proof. unfold add_ping. tgo. Qed.
#[local] Hint Resolve tm_addping : tm.
Lemma tm_foldin l s : tame s (fold_left (fun s c => conn_reset_in c s) l s). Proof. apply tm_fold. intros. apply tm_reset_in. Qed.
#[local] Hint Resolve tm_foldin : tm.
Lemma tm_ereset b g e s : tame s (ep_reset b g e s).
Proof. unfold ep_reset. tgo. Qed.
#[local] Hint Resolve tm_ereset : tm.
Lemma tm_creset c s : tame s (conn_reset c s). Proof. unfold conn_reset. tgo. Qed.
#[local] Hint Resolve tm_creset : tm.
Lemma tm_epdrop e s : tame s (ep_drop e s). Proof. unfold ep_drop. tgo. Qed.
Lemma tm_conndrop c s : tame s (conn_drop c s). Proof. unfold conn_drop. tgo. Qed.
#[local] Hint Resolve tm_epdrop tm_conndrop : tm.
Lemma tm_addconn e c b s : tame s (fst (add_connection e c b s)). Proof. unfold add_connection. tgo. Qed.
#[local] Hint Resolve tm_addconn : tm.

Definition bad_addr (a : bytes) : Prop := parse_address a = Throws \/ parse_address a = Undefined.
Definition fine_addr (a : bytes) : Prop := bad_addr a -> P UThrow.

Lemma tm_push c m s : tame s (fst (push c m s)).
Proof. unfold push. tgo. Qed.
#[local] Hint Resolve tm_push : tm.
Lemma tm_send_on c m s : tame s (fst (send_on c m s)). Proof. unfold send_on. tgo. Qed.
#[local] Hint Resolve tm_send_on : tm.
Lemma tm_gen_keys l s : tame s (fst (gen_keys l s)). Proof. destruct (gen_keys_eq l s) as [v E]. rewrite E. now apply tame_same. Qed.
#[local] Hint Resolve tm_gen_keys : tm.
Lemma tm_send_reg r c z q s : tame s (fst (send_reg r c z q s)). Proof. unfold send_reg. tgo. Qed.
#[local] Hint Resolve tm_send_reg : tm.
Lemma tm_send_ping c q s : tame s (fst (send_ping c q s)). Proof. unfold send_ping. tgo. Qed.
#[local] Hint Resolve tm_send_ping : tm.
Lemma tm_on_new c s : tame s (on_new_connection c s). Proof. unfold on_new_connection. tgo. Qed.
#[local] Hint Resolve tm_on_new : tm.
Lemma tm_actived s : tame s (on_actived s). Proof. unfold on_actived. tgo. Qed.
#[local] Hint Resolve tm_actived : tm.
Lemma tm_addep e s : tame s (fst (add_endpoint e s)). Proof. unfold add_endpoint. tgo. Qed.
#[local] Hint Resolve tm_addep : tm.
Lemma tm_rmep i ex s : tame s (fst (remove_endpoint i ex s)). Proof. unfold remove_endpoint, fatal_shutdown. tgo. Qed.
#[local] Hint Resolve tm_rmep : tm.
Lemma tm_ep_fault e s : tame s (fst (ep_fault e s)). Proof. unfold ep_fault. tgo. Qed.
#[local] Hint Resolve tm_ep_fault : tm.
Lemma tm_conn_fault c s : tame s (conn_fault c s). Proof. unfold conn_fault. tgo. Qed.
#[local] Hint Resolve tm_conn_fault : tm.
Lemma tm_number m s : tame s (fst (number m s)). Proof. unfold number. tgo. Qed.
#[local] Hint Resolve tm_number : tm.
Lemma tm_post d i m s : tame s (fst (post d i m s)). Proof. unfold post. tgo. Qed.
#[local] Hint Resolve tm_post : tm.
Lemma tm_send_cmd_rsp oc d t z q f s : tame s (fst (send_cmd_rsp oc d t z q f s)). Proof. unfold send_cmd_rsp. tgo. Qed.
#[local] Hint Resolve tm_send_cmd_rsp : tm.
Lemma tm_cmd_req oc h q s : tame s (fst (cmd_req oc h q s)). Proof. unfold cmd_req. tgo. Qed.
Lemma tm_cmd_rsp oc h q s : tame s (fst (cmd_rsp oc h q s)). Proof. unfold cmd_rsp. tgo. Qed.
#[local] Hint Resolve tm_cmd_req tm_cmd_rsp : tm.
Lemma tm_self_data m s : tame s (self_data m s). Proof. unfold self_data. tgo. Qed.
Lemma tm_self_cmd m s : tame s (self_cmd m s). Proof. unfold self_cmd. tgo. Qed.
#[local] Hint Resolve tm_self_data tm_self_cmd : tm.
Lemma tm_data_loop n : forall s, tame s (fst (fst (self_data_loop n s))).
Proof.
  induction n as [|n IH]; intro s; cbn [self_data_loop]; [apply tame_refl|]. destruct (qdata s) as [|m l]; [apply tame_refl|]. cbv zeta.
  pose proof (tm_self_data m s) as A. set (s1 := self_data m s) in *. specialize (IH (set_qdata (tl (qdata s1)) s1)).
  destruct (self_data_loop n _) as [[s2 r] k]. cbn [fst] in *. eapply tame_trans; [exact A|]. eapply tame_trans; [|exact IH]. now apply tame_same.
Qed.
Lemma tm_cmd_loop n : forall s, tame s (fst (self_cmd_loop n s)).
Proof.
  induction n as [|n IH]; intro s; cbn [self_cmd_loop]; [apply tame_refl|]. destruct (qcmd s) as [|m l]; [apply tame_refl|]. cbv zeta.
  pose proof (tm_self_cmd m s) as A. set (s1 := self_cmd m s) in *. specialize (IH (set_qcmd (tl (qcmd s1)) s1)).
  destruct (self_cmd_loop n _) as [s2 k]. cbn [fst] in *. eapply tame_trans; [exact A|]. eapply tame_trans; [|exact IH]. now apply tame_same.
Qed.
#[local] Hint Resolve tm_data_loop tm_cmd_loop : tm.
Lemma tm_dispatch_self s : tame s (fst (dispatch_self s)). Proof. unfold dispatch_self. tgo. Qed.
#[local] Hint Resolve tm_dispatch_self : tm.
Lemma tm_send_to d i m s : tame s (fst (send_to d i m s)). Proof. unfold send_to. tgo. Qed.
#[local] Hint Resolve tm_send_to : tm.
Lemma tm_conn_connect c a s : fine_addr a -> tame s (fst (conn_connect c a s)).
Proof.
  intro F. unfold conn_connect. destruct (k_st _); try apply tame_refl. unfold fine_addr, bad_addr in F.
  destruct (parse_address a) eqn:PA; [tgo|tgo|cbn [fst]; apply tm_emit, F; auto..].
Qed.
Lemma tm_create s : tame s (fst (conn_create s)). Proof. unfold conn_create, add_timer. tgo. Qed.
#[local] Hint Resolve tm_create : tm.
Lemma tm_connect a s : fine_addr a -> tame s (fst (connect a s)).
Proof. intro F. pose proof (fun c s => tm_conn_connect c a s F) as H. unfold connect. tgo. Qed.
Lemma tm_connect_ep a e s : fine_addr a -> tame s (fst (connect_ep a e s)).
Proof. intro F. pose proof (fun c s => tm_conn_connect c a s F) as H. unfold connect_ep. tgo. Qed.
Lemma tm_add_listen e a s : tame s (add_listen e a s). Proof. unfold add_listen. tgo. Qed.
#[local] Hint Resolve tm_add_listen : tm.
Lemma tm_open e can l : Forall fine_addr l -> forall has s, tame s (fst (open_channels e can l has s)).
Proof.
  intro F. induction F as [|a l A F IH]; intros has s; [apply tame_refl|]. cbn [open_channels].
  destruct a as [|x a]; [apply IH|]. cbv zeta. set (b := x :: a) in *.
  destruct (_ && _); [apply IH|]. destruct (_ && _); [apply IH|]. destruct (_ && _); [apply IH|].
  assert (L : forall s, tame s (fst (open_channels e can l true (add_listen (e_ref e) b s)))).
  { intro s0. eapply tame_trans; [apply (tm_add_listen (e_ref e) b s0)|apply IH]. }
  destruct (_ && _); [|apply L].
  pose proof (tm_connect_ep b (e_ref e) s A) as C. destruct (connect_ep b (e_ref e) s) as [s1 res]. cbn [fst] in C.
  eapply tame_trans; [exact C|]. destruct (_ <? _)%Z; [apply IH|apply L].
Qed.
Lemma tm_welcome c e r s : Forall fine_addr (r_chans r) -> tame s (welcome c e r s).
Proof. intro F. pose proof (fun e can has s => tm_open e can (r_chans r) F has s) as H. unfold welcome. tgo. Qed.
Lemma tm_ep_create i subs p h s : tame s (fst (ep_create i subs p h s)). Proof. unfold ep_create. tgo. Qed.
#[local] Hint Resolve tm_ep_create : tm.
(** [nets] can be handled for node [i]. *)
Definition fine_nets (i : N) (nets : list sconf) : Prop := peer_subnets i nets = None -> P UShift.
Lemma tm_reg_body c r s : Forall fine_addr (r_chans r) -> fine_nets (r_id r) (r_nets r) -> tame s (fst (reg_body c r s)).
Proof.
  intros F G. pose proof (fun c e s => tm_welcome c e r s F) as H. unfold fine_nets, peer_subnets in G. unfold reg_body, fatal_shutdown.
  destruct (is_connected s c); [tgo|]. destruct (r_id r =? 0); [tgo|]. destruct (get_endpoint s (r_id r)); [tgo|].
  destruct (reg_confs (r_id r) (r_nets r)) as [cs'|]; [|cbn [fst]; apply tm_emit, G; reflexivity].
  destruct (_ && _); [apply tame_refl|]. destruct (endpoint_subnets (r_id r) cs'); [|cbn [fst]; apply tm_emit, G; reflexivity]. tgo.
Qed.
Lemma tm_reg_deny c z q s : tame s (fst (reg_deny c z q s)). Proof. unfold reg_deny. tgo. Qed.
#[local] Hint Resolve tm_reg_deny : tm.
Lemma tm_reg_req c h r s : Forall fine_addr (r_chans r) -> fine_nets (r_id r) (r_nets r) -> tame s (fst (reg_req c h r s)).
Proof. intros F G. pose proof (fun c s => tm_reg_body c r s F G) as H. unfold reg_req. tgo. Qed.
Definition fine_rsp (nets : list sconf) : Prop := (exists i, confs_contain_id nets i = None) -> P UShift.
Lemma tm_reg_rsp c h r s : fine_rsp (r_nets r) -> tame s (fst (reg_rsp c h r s)).
Proof.
  intro F. unfold reg_rsp, fatal_shutdown, parent_reg_done.
  cbv zeta. set (s1 := emit _ s). eapply (tame_trans s s1); [now apply tm_emit|]. clearbody s1.
  destruct (_ || _); [tgo|]. destruct (nst s1); try apply tame_refl. destruct (is_parent _ _); [tgo|].
  destruct (confs_contain_id (r_nets r) (my_id s1)) as [[]|] eqn:E; [tgo|tgo|]. cbn [fst]. apply tm_emit, F. eauto.
Qed.
Lemma tm_conn_syn c h a s : fine_addr a -> tame s (fst (conn_syn c h a s)).
Proof. intro F. pose proof (fun s => tm_connect a s F) as H. unfold conn_syn. destruct a; tgo. Qed.
Lemma tm_sync b c h s : tame s (fst (sync_msg b c h s)). Proof. unfold sync_msg. tgo. Qed.
Lemma tm_transfer h w z s : tame s (fst (transfer_rsp h w z s)). Proof. unfold transfer_rsp. tgo. Qed.
#[local] Hint Resolve tm_sync tm_transfer : tm.
Lemma tm_forward b h w f t s : tame s (fst (fst (fst (forward b h w f t s)))). Proof. unfold forward. tgo. Qed.
#[local] Hint Resolve tm_forward : tm.
Lemma tm_connect_sync a b s : tame s (fst (connect_sync a b s)). Proof. unfold connect_sync. tgo. Qed.
#[local] Hint Resolve tm_connect_sync : tm.
Lemma tm_data_req c h w s : tame s (fst (data_req c h w s)). Proof. unfold data_req. tgo. Qed.
Lemma tm_data_rsp c h w s : tame s (fst (data_rsp c h w s)). Proof. unfold data_rsp. tgo. Qed.
Lemma tm_ping c h t s : tame s (fst (ping_msg c h t s)). Proof. unfold ping_msg. tgo. Qed.
Lemma tm_pong c h t s : tame s (fst (pong_msg c h t s)). Proof. unfold pong_msg. tgo. Qed.
#[local] Hint Resolve tm_data_req tm_data_rsp tm_ping tm_pong : tm.
Definition fine_msg (m : msg) : Prop :=
  match m_body m with
  | BReg false r => Forall fine_addr (r_chans r) /\ fine_nets (r_id r) (r_nets r)
  | BReg true r => fine_rsp (r_nets r)
  | BConn a => fine_addr a
  | _ => True
  end.
Definition fine_item (i : item) : Prop := match i with RMsg _ m => fine_msg m | _ => True end.
Lemma tm_dispatch c m s : fine_msg m -> tame s (fst (dispatch_msg c m s)).
Proof.
  unfold fine_msg, dispatch_msg. destruct (m_body m) as [[] w|[] q|r|[] r|a|[] t|]; intro F; cbv zeta; try (tgo; fail).
  - now apply tm_reg_rsp.
  - destruct F. now apply tm_reg_req.
  - now apply tm_conn_syn.
Qed.
Lemma tm_fault_of c s : tame s (fault_of c s). Proof. unfold fault_of. tgo. Qed.
#[local] Hint Resolve tm_fault_of : tm.
Lemma tm_after c p : tame (fst p) (after_recv c p). Proof. destruct p as [s r]. unfold after_recv. cbn [fst]. tgo. Qed.
Lemma fine_stamp s c m : fine_msg m -> fine_msg (stamp s c m).
Proof. unfold fine_msg, stamp. destruct (k_bind _); trivial. cbv zeta. now destruct (_ =? 0). Qed.
Lemma tm_recv c i s : fine_item i -> tame s (recv_item c i s).
Proof.
  intro F. destruct i as [z|n|n m]; cbn [recv_item]; [apply tm_fault_of|now apply tame_same|]. cbv zeta. set (s1 := on_c c _ s).
  apply (tame_trans s s1); [now apply tame_same|]. rewrite on_recv_eq. eapply tame_trans; [|apply tm_after].
  now apply tm_dispatch, fine_stamp.
Qed.
Lemma tm_proc_items n c : forall l s, Forall fine_item l -> tame s (proc_items n c l s).
Proof.
  induction n as [|n IH]; intros l s F; cbn [proc_items]; [apply tame_refl|]. destruct (k_kind _); try (now apply tm_recv).
  destruct F as [|i l A F]; [apply tame_refl|]. destruct i as [z|k|k m]; [now apply tm_recv|..]; (eapply tame_trans; [exact (tm_recv c _ s A)|now apply IH]).
Qed.
Lemma tm_proc_one s p : Forall fine_item (snd p) -> (in_procs s (fst p) = true -> snd p <> [] -> P UIterator) -> tame s (proc_one s p).
Proof.
  destruct p as [c l]. cbn [fst snd]. intros F I. unfold proc_one. destruct (in_procs s c) eqn:IP; [|apply tame_refl].
  destruct (true && _ && _) eqn:R; [|apply tame_refl]. cbv zeta. eapply tame_trans; [exact (tm_proc_items (N.to_nat (x_loop (cf s))) c l s F)|].
  set (s1 := proc_items _ c l s). destruct (in_procs s1 c) eqn:IP1; [apply tame_refl|]. apply tm_emit. apply I; [reflexivity|].
  intros ->. destruct (N.to_nat (x_loop (cf s))); cbn [proc_items] in s1; subst s1; [congruence|].
  cbn [andb] in R. destruct (k_kind (cs s c)); rewrite ?andb_false_r in R; try discriminate. congruence.
Qed.
Lemma tm_proc_all feed : forall s, Forall (fun p => Forall fine_item (snd p)) feed ->
  (forall p, In p feed -> in_procs s (fst p) = true -> snd p <> [] -> P UIterator) -> tame s (fold_left proc_one feed s).
Proof.
  induction feed as [|p feed IH]; intros s F H; [apply tame_refl|]. cbn [fold_left]. inversion_clear F as [|? ? A B].
  assert (T : tame s (proc_one s p)) by (apply tm_proc_one; trivial; apply H; now left). eapply tame_trans; [exact T|]. apply IH; trivial.
  intros q Q I. apply (H q); [now right|]. clear H. destruct T as (_ & _ & T). unfold in_procs in *. apply existsb_exists in I as (x & X & Y).
  apply existsb_exists. exists x. auto.
Qed.
Lemma tm_sweep n now : forall s, tame s (sweep n now s).
Proof.
  induction n as [|n IH]; intro s; cbn [sweep]; [apply tame_refl|]. destruct (connecting s) as [|[t c] r]; [apply tame_refl|].
  destruct (is_connected s c); [eapply tame_trans; [|apply IH]; now apply tame_same|]. destruct (_ <=? _); [apply tame_refl|]. cbv zeta.
  eapply tame_trans; [|apply IH]. eapply tame_trans; [exact (tm_creset c s)|]. set (s1 := conn_reset c s). clearbody s1.
  destruct (connecting s1) as [|[t' c'] r']; [apply tame_refl|]. destruct (_ =? _); [|apply tame_refl].
  apply (tame_trans s1 (emit (TInvalid c) s1)); [now apply tm_emit|now apply tame_same].
Qed.
Lemma tm_fault_drop b e s : tame s (fst (fault_drop b e s)). Proof. unfold fault_drop. tgo. Qed.
#[local] Hint Resolve tm_fault_drop : tm.
Lemma tm_ping_endpoint held e s : (held = false -> P UFreed) -> tame s (fst (ping_endpoint held e s)).
Proof.
  intro H. unfold ping_endpoint.
  assert (A : tame s (fst (if d_ping (es s e) =? 0 then (s, false) else fault_drop held e s))) by tgo.
  destruct (if d_ping (es s e) =? 0 then (s, false) else fault_drop held e s) as [s1 gone]. cbn [fst] in A.
  eapply tame_trans; [exact A|]. clear A. destruct gone; [apply tame_refl|]. destruct (self s1); [|apply tame_refl].
  destruct (_ =? _); [apply tame_refl|]. destruct (ctrl_conn s1 _) as [c|]; [|tgo].
  unfold alloc_seq. cbv zeta. set (q := if _ =? 0 then 1 else _). set (s2 := set_seqn q s1).
  apply (tame_trans s1 s2); [now apply tame_same|]. clearbody s2 q.
  pose proof (tm_send_ping c q s2) as B. destruct (send_ping c q s2) as [s3 r]. cbn [fst] in B. eapply tame_trans; [exact B|]. clear B.
  destruct (_ <? _)%Z; [tgo|]. cbn [fst].
  assert (C : tame s3 (match data_conn s3 (d_ep (es s3 e)) false with
                          | Some _ => s3
                          | None =>
                              let (s, gone) := ep_fault e s3 in
                              if gone && negb held && negb (ep_held s e)
                              then emit (TUb UFreed) (ep_drop e s) else s
                          end)).
  { destruct (data_conn s3 _ false); [apply tame_refl|]. pose proof (tm_ep_fault e s3) as B. destruct (ep_fault e s3) as [s4 g]. cbn [fst] in B.
    eapply tame_trans; [exact B|]. destruct (g && negb held && negb (ep_held s4 e)) eqn:G; [|apply tame_refl].
    eapply tame_trans; [exact (tm_epdrop e s4)|]. apply tm_emit. apply H. destruct held; trivial. rewrite andb_false_r in G. discriminate. }
  set (s4 := match data_conn s3 _ _ with Some _ => _ | None => _ end) in *. eapply tame_trans; [exact C|]. now apply tame_same.
Qed.
Lemma tm_created e s : tame s (fst (created e s)). Proof. unfold created. tgo. Qed.
#[local] Hint Resolve tm_created : tm.
Lemma tm_idle now e s : tame s (fst (idle_out now e s)). Proof. unfold idle_out. tgo. Qed.
#[local] Hint Resolve tm_idle : tm.
Lemma tm_parent_op now s : (x_parent (cf s) <> [] -> P UFreed) -> fine_addr (x_parent (cf s)) -> tame s (parent_op now s).
Proof.
  intros H F. unfold parent_op. destruct (bytes_eqb (x_parent (cf s)) []) eqn:X; [rewrite andb_false_r; apply tame_refl|].
  assert (NE : x_parent (cf s) <> []) by (intro Y; now rewrite Y in X). cbn [negb].
  destruct (_ && _); [|apply tame_refl].
  assert (C : tame s (let (s0, r) := connect (x_parent (cf s)) s in
    if (r <? 0)%Z then set_popr (now + x_retry (cf s0)) s0 else set_nst NConnecting (set_popr (now + x_first (cf s0)) s0))).
  { pose proof (tm_connect _ s F) as C. destruct (connect _ s) as [s1 r]. cbn [fst] in C. eapply tame_trans; [exact C|]. destruct (_ <? _)%Z; now apply tame_same. }
  destruct (parent s) as [p|]; [|exact C]. destruct (ctrl_conn s p); [|exact C].
  pose proof (tm_idle now (e_ref p) s) as A. destruct (idle_out now (e_ref p) s) as [s1 out]. cbn [fst] in A. eapply tame_trans; [exact A|]. cbv zeta.
  assert (B : tame s1 (if out then gc_ep p s1 else fst (ping_endpoint false (e_ref p) s1))) by (destruct out; [apply tm_gce|apply tm_ping_endpoint; auto]).
  set (s2 := if out then _ else _) in *. eapply tame_trans; [exact B|]. now apply tame_same.
Qed.
Lemma tm_release nx s : tame s (release nx s). Proof. unfold release. tgo. Qed.
#[local] Hint Resolve tm_release : tm.
Lemma tm_ping_loop f now : forall nx s s', ping_loop f now nx s = Some s' -> tame s s'.
Proof.
  induction f as [|f IH]; intros nx s s'; cbn [ping_loop]; [discriminate|]. destruct (pings s) as [|[t e0] l]; [intros [= <-]; apply tm_release|].
  destruct (_ <? _); [intros [= <-]; apply tm_release|]. cbv zeta. set (e := match nx with Some e => e | None => e0 end).
  pose proof (tm_idle now e s) as A. destruct (idle_out now e s) as [s1 out]. cbn [fst] in A. destruct out.
  - intro E. apply IH in E. eapply tame_trans; [exact A|]. eapply tame_trans; [|exact E]. tgo.
  - set (s2 := if match parent s1 with Some p => e_ref p =? e | None => false end then s1 else _).
    assert (B : tame s1 s2) by (unfold s2; destruct (match parent s1 with Some p => e_ref p =? e | None => false end); [apply tame_refl|apply tm_ping_endpoint; discriminate]).
    set (s3 := add_ping _ s2). assert (C : tame s s3) by (eapply tame_trans; [exact A|]; eapply tame_trans; [exact B|apply tm_addping]).
    clearbody s3. clear A B. destruct (pings s3) as [|[t2 e2] r].
    + intros [= <-]. eapply tame_trans; [exact C|apply tm_epdrop].
    + destruct (_ <? _); [intros [= <-]; eapply tame_trans; [exact C|apply tm_epdrop]|].
      destruct (negb _); [intro E; apply IH in E; eapply tame_trans; [exact C|]; eapply tame_trans; [exact (tm_epdrop e s3)|exact E]|].
      destruct (_ =? _); intro E; apply IH in E; (eapply tame_trans; [exact C|]); (eapply tame_trans; [|exact E]).
      * apply (tame_trans s3 (set_pings r s3)); [now apply tame_same|apply tm_epdrop].
      * apply tm_epdrop.
Qed.
Lemma tm_gc_one s e : tame s (gc_one s e). Proof. unfold gc_one. tgo. Qed.
Lemma tm_gcs l s : tame s (fold_left gc_one l s). Proof. apply tm_fold, tm_gc_one. Qed.
Lemma tm_drops l s : tame s (fold_left drop_ep l s). Proof. apply tm_fold. intros. apply tm_epdrop. Qed.
Lemma tm_cdrops l s : tame s (fold_left (fun s c => conn_drop c s) l s). Proof. apply tm_fold. intros. apply tm_conndrop. Qed.
#[local] Hint Resolve tm_gcs tm_drops tm_cdrops : tm.
Lemma tm_collect s : tame s (collect s). Proof. unfold collect. tgo. Qed.
#[local] Hint Resolve tm_collect : tm.
Lemma tm_drain n : forall s, tame s (drain n s).
Proof.
  induction n as [|n IH]; intro s; cbn [drain]; [apply tame_refl|]. pose proof (tm_dispatch_self s) as A. destruct (dispatch_self s) as [s1 k]. cbn [fst] in A.
  destruct k; [exact A|]. eapply tame_trans; [exact A|apply IH].
Qed.
Lemma tm_drop_connecting n : forall s, tame s (drop_connecting n s).
Proof.
  induction n as [|n IH]; intro s; cbn [drop_connecting]; [apply tame_refl|]. destruct (connecting s) as [|[t c] r]; [apply tame_refl|]. cbv zeta.
  eapply tame_trans; [|apply IH]. eapply tame_trans; [exact (tm_creset c s)|]. set (s1 := conn_reset c s). clearbody s1.
  destruct (connecting s1) as [|[t' c'] r']; [apply tame_refl|]. destruct (_ =? _); [now apply tame_same|apply tame_refl].
Qed.
Lemma tm_connected c z s : tame s (connected_cb c z s). Proof. unfold connected_cb. tgo. Qed.
#[local] Hint Resolve tm_connected : tm.
Lemma tm_finish l : forall s, tame s (finish_connects l s).
Proof.
  induction l as [|c l IH]; intro s; cbn [finish_connects]; [apply tame_refl|]. assert (A : tame s (fst (take_orc s))) by tgo.
  destruct (take_orc s) as [s1 z]. cbn [fst] in A. eapply tame_trans; [exact A|]. eapply tame_trans; [exact (tm_connected c z s1)|apply IH].
Qed.
Lemma tm_listen_cb c z s : tame s (listen_cb c z s). Proof. unfold listen_cb. tgo. Qed.
#[local] Hint Resolve tm_listen_cb : tm.
Lemma tm_listened c z s : tame s (listened c z s). Proof. unfold listened. tgo. Qed.
#[local] Hint Resolve tm_listened : tm.
Lemma tm_finish_l l : forall s, tame s (finish_listens l s).
Proof.
  induction l as [|c l IH]; intro s; cbn [finish_listens]; [apply tame_refl|]. assert (A : tame s (fst (take_orc s))) by tgo.
  destruct (take_orc s) as [s1 z]. cbn [fst] in A. eapply tame_trans; [exact A|]. eapply tame_trans; [exact (tm_listened c z s1)|apply IH].
Qed.
#[local] Hint Resolve tm_drain tm_drop_connecting tm_finish tm_finish_l : tm.
Lemma tm_foldp (l : list (bytes * N)) s : tame s (fold_left (fun s p => conn_reset (snd p) s) l s). Proof. apply tm_fold. intros. apply tm_creset. Qed.
Lemma tm_foldr l s : tame s (fold_left (fun s e => emit (TRemoved e) s) l s). Proof. apply tm_fold. intros. now apply tm_emit. Qed.
Lemma tm_foldc (l : list (N * N)) s : tame s (fold_left (fun s p => clear_ping (snd p) (ep_reset None false (snd p) s)) l s).
Proof. apply tm_fold. intros. eapply tame_trans; [apply tm_ereset|apply tm_clear]. Qed.
Lemma tm_noprocs s : tame s (set_procs [] s). Proof. split; [now apply adds_same|]. split; [reflexivity|intros p []]. Qed.
#[local] Hint Resolve tm_foldp tm_foldr tm_foldc tm_noprocs : tm.
Lemma tm_bind (f : node -> node) a s e : tame a s -> tame s e -> (forall x, tame a x -> tame a (f x)) -> tame a (let x := e in f x).
Proof. intros A B H. apply H. exact (tame_trans _ _ _ A B). Qed.
Lemma tm_bindl (f : list N -> node) a e : (forall l, tame a (f l)) -> tame a (let x := e in f x).
Proof. intro H. apply H. Qed.
Lemma tm_reset s : tame s (reset s).
Proof.
  cbv beta delta [reset]. destruct (fl_reset s); [apply tame_refl|].
  Ltac tr1 s1 A := lazymatch goal with
  | |- tame ?a (let x := _ in @?f x) => first [refine (tm_bindl f a _ _); intro | refine (tm_bind f a s1 _ A _ _)]; cbv beta
  end.
  pose proof (tame_refl s) as A. tr1 s A; [eapply tame_trans; [apply (tame_same s (set_fl_reset true s)); reflexivity|apply tm_emit; exact Logic.I]|intros s1 A1]. clear A.
  tr1 s1 A1; [apply tm_drain|intros s2 A2]. tr1 s2 A2; [apply tm_foldp|intros s3 A3]. tr1 s3 A3; [apply tm_noprocs|intros s4 A4].
  tr1 s4 A4; [tgo|intros s5 A5]. tr1 s5 A5. tr1 s5 A5; [exact (tame_trans _ _ _ (tame_same s5 (set_routes [] s5) eq_refl eq_refl eq_refl) (tm_foldr _ _))|intros s6 A6].
  tr1 s6 A6; [apply tm_drops|intros s7 A7]. tr1 s7 A7; [apply tm_drop_connecting|intros s8 A8]. tr1 s8 A8; [tgo|intros s9 A9].
  tr1 s9 A9; [now apply tame_same|intros s10 A10]. tr1 s10 A10. tr1 s10 A10; [exact (tame_trans _ _ _ (tame_same s10 (set_gce [] s10) eq_refl eq_refl eq_refl) (tm_drops _ _))|intros s11 A11].
  tr1 s11 A11; [now apply tame_same|intros s12 A12]. tr1 s12 A12; [apply tm_foldc|intros s13 A13]. tr1 s13 A13; [now apply tame_same|intros s14 A14].
  tr1 s14 A14; [apply tm_finish|intros s15 A15]. tr1 s15 A15; [apply tm_finish_l|intros s16 A16]. tr1 s16 A16; [now apply tame_same|intros s17 A17].
  tr1 s17 A17; [now apply tame_same|intros s18 A18]. eapply tame_trans; [exact A18|]. eapply tame_trans; [|apply tm_emit; exact Logic.I]. now apply tame_same.
Qed.
#[local] Hint Resolve tm_reset : tm.
Lemma tm_stop s : tame s (stop_if_shut s). Proof. unfold stop_if_shut. tgo. Qed.
#[local] Hint Resolve tm_stop : tm.
Lemma tm_time now s : tame s (if sec s <? now then set_sec now s else s). Proof. tgo. Qed.
Lemma tm_proc f now feed s s' : Forall (fun p => Forall fine_item (snd p)) feed ->
  (forall p, In p feed -> in_procs s (fst p) = true -> snd p <> [] -> P UIterator) ->
  (x_parent (cf s) <> [] -> P UFreed) -> fine_addr (x_parent (cf s)) -> proc f now feed s = Some s' -> tame s s'.
Proof.
  intros F I H A. unfold proc. cbv zeta. pose proof (tm_time now s) as T. set (s0 := if sec s <? now then _ else _) in *.
  assert (PR : procs s0 = procs s) by (unfold s0; now destruct (sec s <? now)).
  destruct (nst s0); [intros [= <-]; exact T|..].
  all: destruct (fl_shut s0); [intros [= <-]; eapply tame_trans; [exact T|]; eapply tame_trans; [apply tm_dispatch_self|apply tm_reset]|].
  all: assert (B : tame s0 (fold_left proc_one feed s0)) by (apply tm_proc_all; trivial; unfold in_procs; rewrite PR; exact I).
  all: set (s1 := fold_left proc_one feed s0) in *; pose proof (tm_sweep (length (connecting s1)) now s1) as C; set (s2 := sweep _ now s1) in *.
  all: assert (E : cf s2 = cf s) by (destruct T as (_ & T & _), B as (_ & B & _), C as (_ & C & _); congruence).
  all: assert (D : tame s2 (parent_op now s2)) by (apply tm_parent_op; rewrite E; trivial); set (s3 := parent_op now s2) in *.
  all: destruct (ping_loop f now None s3) as [s4|] eqn:PL; [|discriminate]; intros [= <-]; apply tm_ping_loop in PL.
  all: eapply tame_trans; [exact T|]; eapply tame_trans; [exact B|]; eapply tame_trans; [exact C|]; eapply tame_trans; [exact D|];
    eapply tame_trans; [exact PL|]; eapply tame_trans; [apply tm_dispatch_self|]; eapply tame_trans; [apply tm_collect|apply tm_stop].
Qed.
Lemma tm_accepted a s : tame s (accepted a s). Proof. unfold accepted. tgo. Qed.
Lemma tm_closed c s : tame s (peer_closed c s). Proof. unfold peer_closed. tgo. Qed.
Lemma tm_written c z n s : tame s (written c z n s). Proof. unfold written. tgo. Qed.
#[local] Hint Resolve tm_accepted tm_closed tm_written : tm.
Definition fine_io (i : io) : Prop := match i with IRecv _ i => fine_item i | IAcceptFailed => P UNull | _ => True end.
Lemma tm_accept_failed s : P UNull -> tame s (accept_failed s).
Proof. intro U. unfold accept_failed. destruct (_ && _); [apply tame_refl|now apply tm_emit]. Qed.
Lemma tm_io i s : fine_io i -> tame s (io_step i s).
Proof.
  intro F. unfold io_step. destruct (nst s); [apply tame_refl|..]; destruct i; try (tgo; fail); try (now apply tm_accept_failed).
  all: destruct (k_kind _); try apply tame_refl; now apply tm_recv.
Qed.
Lemma tm_ios l : Forall fine_io l -> forall s, tame s (fold_left (fun s i => io_step i s) l s).
Proof. induction 1 as [|i l A F IH]; intro s; [apply tame_refl|]. cbn [fold_left]. eapply tame_trans; [exact (tm_io i s A)|apply IH]. Qed.
Lemma tm_poll l s : Forall fine_io l -> tame s (poll l s).
Proof. intro F. pose proof (tm_ios l F) as H. unfold poll. tgo. Qed.
Lemma tm_start now s : fine_addr (x_parent (cf s)) -> tame s (fst (start now s)).
Proof.
  intro F. unfold start. destruct (nst s); [apply tame_refl|..]; cbv zeta; set (s1 := set_sec now s).
  all: apply (tame_trans s s1); [now apply tame_same|]; assert (F1 : fine_addr (x_parent (cf s1))) by exact F; pose proof (tm_connect _ s1 F1) as C; clearbody s1; tgo.
Qed.
Lemma tm_send_data a b c d q s : tame s (fst (send_data a b c d q s)). Proof. unfold send_data. tgo. Qed.
Lemma tm_send_custom a b q s : tame s (fst (send_custom a b q s)). Proof. unfold send_custom. tgo. Qed.
Lemma tm_node_dis i s : tame s (fst (node_disconnect i s)). Proof. unfold node_disconnect. tgo. Qed.
(** Listening may add a polled channel, and [init] replaces the configuration. *)
Lemma ub_init i x s : (endpoint_subnets i (x_nets x) = None -> P UShift) -> adds mild s (fst (init i x s)) /\ cf (fst (init i x s)) = x /\ incl (procs (fst (init i x s))) (procs s).
Proof.
  intro H. unfold init. set (s1 := match nst s with NCreated => s | _ => reset s end).
  assert (A : tame s s1) by (unfold s1; destruct (nst s); [apply tame_refl|apply tm_reset..]). cbv zeta. set (s2 := set_cf x s1).
  assert (B : forall s', tame s2 s' -> adds mild s s' /\ cf s' = x /\ incl (procs s') (procs s)).
  { intros s' (B1 & B2 & B3). destruct A as (A1 & _ & A3). split; [eapply adds_trans; [exact A1|]; exact B1|]. split; [exact B2|]. exact (incl_tran B3 A3). }
  clearbody s2. destruct (endpoint_subnets i (x_nets x)) as [subs|]; [|apply B; cbn [fst]; apply tm_emit; now apply H].
  apply B. tgo.
Qed.
Definition socketed (a : bytes) : Prop :=
  forall p, parse_address a = Parsed p -> prefix_nocase s_mem (a_scheme p) || prefix_nocase s_shm (a_scheme p) = false.
Lemma ub_listen a s : fine_addr a -> adds mild s (fst (listen a s)) /\ cf (fst (listen a s)) = cf s /\
  (socketed a -> incl (procs (fst (listen a s))) (procs s)).
Proof.
  intro F. unfold listen.
  assert (X : forall s0 c, adds mild s0 (fst (conn_listen c a s0)) /\ cf (fst (conn_listen c a s0)) = cf s0 /\
    (socketed a -> incl (procs (fst (conn_listen c a s0))) (procs s0))).
  { intros s0 c. unfold conn_listen, fine_addr, bad_addr, socketed in *.
    assert (T : forall s' (Q : Prop), tame s0 s' -> adds mild s0 s' /\ cf s' = cf s0 /\
      (Q -> incl (procs s') (procs s0))) by (intros s' Q (A & B & C); auto).
    destruct (k_st _); try (apply T; apply tame_refl).
    destruct (parse_address a) as [|p| |] eqn:PA; [apply T; tgo| |apply T; cbn [fst]; apply tm_emit, F; auto..].
    destruct (_ || _) eqn:SC.
    - set (s1 := on_c c _ s0). assert (A : tame s0 s1) by now apply tame_same. clearbody s1. assert (B : tame s1 (fst (take_orc s1))) by tgo.
      destruct (take_orc s1) as [s2 r]. cbn [fst] in B. destruct (_ <? _)%Z; [apply T; cbn [fst]; exact (tame_trans _ _ _ A B)|]. cbv zeta.
      set (s3 := on_c c (set_k_kind KRecv) s2). assert (C : tame s2 s3) by now apply tame_same. clearbody s3.
      set (s4 := add_proc c s3). assert (D : log s4 = log s3 /\ cf s4 = cf s3) by (unfold s4, add_proc; destruct (bytes_eqb _ _); cbn [orb]; [now split|]; destruct (existsb _ _); now split). clearbody s4.
      set (g := fun k => _). assert (E : tame s4 (on_new_connection c (set_status c Connected (on_c c g s4)))) by tgo. cbn [fst].
      destruct D as [D1 D2]. destruct A as (A1 & A2 & _), B as (B1 & B2 & _), C as (C1 & C2 & _), E as (E1 & E2 & _).
      split; [|split; [congruence|intros X; specialize (X p eq_refl); congruence]].
      eapply adds_trans; [exact A1|]. eapply adds_trans; [exact B1|]. eapply adds_trans; [exact C1|]. eapply adds_trans; [apply (adds_same mild s3 s4 D1)|exact E1].
    - apply T. tgo. }
  assert (T : forall s' (Q : Prop), tame s s' -> adds mild s s' /\ cf s' = cf s /\
      (Q -> incl (procs s') (procs s))) by (intros s' Q (A & B & C); auto).
  destruct (nst s); [apply T, tame_refl|..].
  all: pose proof (tm_create s) as C; destruct (conn_create s) as [s1 c]; cbn [fst] in C; specialize (X s1 c); destruct (conn_listen c a s1) as [s2 r]; cbn [fst] in X.
  all: destruct C as (C1 & C2 & C3), X as (X1 & X2 & X3).
  all: assert (Y : forall s', tame s2 s' -> adds mild s s' /\ cf s' = cf s /\ (socketed a -> incl (procs s') (procs s)))
    by (intros s' (Y1 & Y2 & Y3); split; [exact (adds_trans _ _ _ _ C1 (adds_trans _ _ _ _ X1 Y1))|]; split; [congruence|];
        intros Q; exact (incl_tran Y3 (incl_tran (X3 Q) C3))).
  all: apply Y; tgo.
Qed.
End Tame.
