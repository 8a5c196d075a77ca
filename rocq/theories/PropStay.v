(** An active node stays up: C66. *)
From Verif Require Import Base Subnet Route Address NodeTypes NodeConn NodeCore NodeMsg Node
  NodeFrame NodeReset NodeInv NodeKeep NodeSteps NodeCtx NodeReach NodeSpec NodeLog NodeTime NodeReg NodeStay NodeExample NodeParent PropParent.
Local Open Scope N_scope.
Ltac Zify.zify_post_hook ::= idtac.

(** A registration whose range does not cover the one of the node. *)
Definition narrow (mine : list range) (m : msg) : Prop :=
  exists r confs subs, m_body m = BReg false r /\ reg_confs (r_id r) (r_nets r) = Some confs /\
    endpoint_subnets (r_id r) confs = Some subs /\ subnets_contain subs mine = false.
(** It arrives over a connection to the address of the parent, while that is being connected. *)
Definition wrong_parent (c : N) (m : msg) (s : node) : Prop :=
  k_addr (cs s c) = x_parent (cf s) /\ nst s = NConnecting /\ narrow (my_subs s) m.

Lemma kd_reg_body c r s h : self s <> None -> ~ wrong_parent c {| m_head := h; m_body := BReg false r |} s -> kd s (fst (reg_body c r s)).
Proof.
  intros SN NW. unfold reg_body. destruct (is_connected s c); [wgo|]. destruct (r_id r =? 0); [wgo|].
  destruct (get_endpoint s (r_id r)) as [e|]; [wgo|].
  destruct (reg_confs (r_id r) (r_nets r)) as [confs|] eqn:RC; [|wgo].
  destruct (_ && _); [apply kd_refl|]. destruct (endpoint_subnets (r_id r) confs) as [subs|] eqn:ES; [|wgo].
  assert (E2 : forall e, e = snd (ep_create (r_id r) subs (r_pid r) (r_host r) s) -> e_subs e = subs) by (intros e ->; reflexivity).
  assert (FR : k_addr (cs (fst (ep_create (r_id r) subs (r_pid r) (r_host r) s)) c) = k_addr (cs s c) /\
    cf (fst (ep_create (r_id r) subs (r_pid r) (r_host r) s)) = cf s /\ nst (fst (ep_create (r_id r) subs (r_pid r) (r_host r) s)) = nst s /\
    my_subs (fst (ep_create (r_id r) subs (r_pid r) (r_host r) s)) = my_subs s).
  { unfold ep_create. cbn [fst]. unfold insert_ping. destruct (_ || _); cbn; auto. }
  pose proof (kd_ep_create (r_id r) subs (r_pid r) (r_host r) s) as K.
  destruct (ep_create _ _ _ _ s) as [s1 e]. cbn [fst snd] in *. specialize (E2 e eq_refl). destruct FR as (F1 & F2 & F3 & F4).
  cbv zeta. set (bad := if bytes_eqb _ _ then _ else E_OK).
  destruct (negb (bad =? E_OK)%Z) eqn:B; [|wmvn K s2; wgo].
  cbn [fst]. eapply kd_trans; [exact K|]. refine (kd_trans _ _ _ _ (kd_gc_ep e _)).
  refine (kd_trans _ _ _ _ (kd_conn_reset c _)).
  destruct (nst s1) eqn:N1; try apply kd_refl. exfalso. apply NW.
  subst bad. rewrite F1, F2 in B. destruct (bytes_eqb (k_addr (cs s c)) (x_parent (cf s))) eqn:BE; [|discriminate B].
  destruct (self s1) eqn:SE.
  - destruct (subnets_contain (e_subs e) (my_subs s1)) eqn:SC; [discriminate B|].
    split; [now apply bytes_eqb_true|]. split; [now rewrite <- F3|]. exists r, confs, subs.
    rewrite E2, F4 in SC. auto.
  - elim SN. rewrite <- (U_self _ _ K). exact SE.
Qed.
Lemma kd_reg_req c h r s h0 : self s <> None -> ~ wrong_parent c {| m_head := h0; m_body := BReg false r |} s -> kd s (fst (reg_req c h r s)).
Proof.
  intros SN NW. unfold reg_req. destruct (h_ver h <? ver)%Z; [wgo|]. destruct (negb _); [wgo|].
  pose proof (kd_reg_body c r s h0 SN NW) as K. destruct (reg_body c r s) as [s1 z]. cbn [fst] in K. wmvn K s2. wgo.
Qed.
Lemma kd_dispatch_msg c m s : self s <> None -> ~ wrong_parent c m s -> kd s (fst (dispatch_msg c m s)).
Proof.
  intros SN NW. unfold dispatch_msg. destruct m as [h b]. cbn [m_head m_body]. destruct b as [[] w|[] q|rsp|[] r|a|[] tp|]; try solve [wgo].
  now apply (kd_reg_req c h r s h).
Qed.
Lemma kd_on_recv c m s : self s <> None -> ~ wrong_parent c m s -> kd s (on_recv c m s).
Proof.
  intros SN NW. unfold on_recv. pose proof (kd_dispatch_msg c m s SN NW) as K. destruct (dispatch_msg c m s) as [s1 z]. cbn [fst] in K. wmvn K s2. wgo.
Qed.
(** What arrives is of that kind. *)
Definition wrong_item (c : N) (i : item) (s : node) : Prop := match i with RMsg n m => wrong_parent c m s | _ => False end.
Lemma kd_recv_item c i s : self s <> None -> ~ wrong_item c i s -> kd s (recv_item c i s).
Proof.
  intros SN NW. unfold recv_item. destruct i as [z|n|n m]; [wgo|wgo|]. cbn [wrong_item] in NW. cbv zeta.
  set (s1 := on_c c _ s). assert (K : kd s s1) by (subst s1; apply kd_on_c). eapply kd_trans; [exact K|]. apply kd_on_recv.
  - rewrite (U_self _ _ K). exact SN.
  - intros (A & B & (r & confs & subs & C1 & C2 & C3 & C4)). apply NW. subst s1. cbn in A, B.
    split; [|split; [exact B|]].
    + rewrite <- A. unfold upd. destruct (N.eqb_spec c c); [reflexivity|congruence].
    + exists r, confs, subs. split; [|auto]. rewrite <- C1. unfold stamp. destruct (k_bind _); [|reflexivity].
      destruct (_ =? 0); reflexivity.
Qed.

(** ** Calls *)
(** A callback that brings such a registration. *)
Definition wrong_io (i : io) (s : node) : Prop := match i with IRecv c it => wrong_item c it s | _ => False end.
Lemma kd_io_step i s : self s <> None -> ~ wrong_io i s -> kd s (io_step i s).
Proof.
  intros SN NW. unfold io_step. destruct i as [c z|c z|a|c|c z n|c it|]; cbn [wrong_io] in NW; try solve [wgo].
  assert (K := kd_recv_item c it s SN NW). destruct (nst s); try apply kd_refl; destruct (k_kind (cs s c)); trivial; apply kd_refl.
Qed.
(** The callbacks of one [poll], in the states in which they run. *)
Fixpoint wrong_ios (l : list io) (s : node) : Prop :=
  match l with [] => False | i :: r => wrong_io i s \/ wrong_ios r (io_step i s) end.
Lemma kd_ios l : forall s, self s <> None -> ~ wrong_ios l s -> kd s (fold_left (fun s i => io_step i s) l s).
Proof.
  induction l as [|i r IH]; intros s SN NW; cbn [fold_left wrong_ios] in *; [apply kd_refl|].
  assert (K : kd s (io_step i s)) by (apply kd_io_step; tauto). eapply kd_trans; [exact K|]. apply IH; [|tauto]. rewrite (U_self _ _ K). exact SN.
Qed.
(** What the polled connections of one [proc] bring: any registration that is too narrow. *)
Definition narrow_feed (mine : list range) (feed : list (N * list item)) : Prop :=
  exists c l n m, In (c, l) feed /\ In (RMsg n m) l /\ narrow mine m.
Lemma kd_proc_items n c : forall l s, self s <> None -> ~ (exists k m, In (RMsg k m) l /\ narrow (my_subs s) m) -> kd s (proc_items n c l s).
Proof.
  induction n as [|n IH]; intros l s SN NW; cbn [proc_items]; [apply kd_refl|].
  assert (E : kd s (recv_item c (RErr E_PARAMS) s)) by (apply kd_recv_item; auto).
  destruct (k_kind (cs s c)); trivial. destruct l as [|i r]; [apply kd_refl|].
  assert (K : kd s (recv_item c i s)).
  { apply kd_recv_item; trivial. destruct i as [z|k|k m]; cbn [wrong_item]; auto. intros (_ & _ & W). apply NW. exists k, m. split; [now left|exact W]. }
  assert (Q : kd s (proc_items n c r (recv_item c i s))).
  { eapply kd_trans; [exact K|]. apply IH; [rewrite (U_self _ _ K); exact SN|].
    intros (k & m & W1 & W2). apply NW. exists k, m. split; [now right|]. unfold my_subs in *. now rewrite <- (U_self _ _ K). }
  destruct i as [z|k|k m]; trivial.
Qed.
Lemma kd_procs feed : forall s, self s <> None -> ~ narrow_feed (my_subs s) feed -> kd s (fold_left proc_one feed s).
Proof.
  induction feed as [|[c l] r IH]; intros s SN NW; cbn [fold_left]; [apply kd_refl|].
  assert (K : kd s (proc_one s (c, l))).
  { unfold proc_one. destruct (_ && _); [|apply kd_refl]. cbv zeta.
    assert (K : kd s (proc_items (N.to_nat (x_loop (cf s))) c l s)).
    { apply kd_proc_items; trivial. intros (k & m & W1 & W2). apply NW. exists c, l, k, m. split; [now left|auto]. }
    eapply kd_trans; [exact K|]. destruct (in_procs _ c); [apply kd_refl|apply kd_emit]. }
  eapply kd_trans; [exact K|]. apply IH; [rewrite (U_self _ _ K); exact SN|].
  intros (c' & l' & k & m & W1 & W2). apply NW. exists c', l', k, m. split; [now right|]. unfold my_subs in *. now rewrite <- (U_self _ _ K).
Qed.
(** The calls that may take the node down: those that ask for it, and those that hand over
    such a registration. *)
Definition fatal (ev : event) (s : node) : Prop :=
  match ev with
  | EInit _ _ | EReset | EShutdown _ => True
  | EPoll l => wrong_ios l s
  | EIo i => wrong_io i s
  | EProc _ feed => narrow_feed (my_subs s) feed
  | _ => False
  end.
Definition is_up (s : node) : Prop := self s <> None /\ fl_act s = true /\ fl_shut s = false.
Lemma up_kd s s' : kd s s' -> is_up s -> is_up s'.
Proof. intros [A B] (C & D & E). destruct (B D) as [F G]. repeat split; congruence. Qed.
Lemma up_stop s : is_up s -> is_up (stop_if_shut s).
Proof. intro U. unfold stop_if_shut. destruct U as (A & B & C). rewrite C. now repeat split. Qed.
Lemma kd_parent_op now s : kd s (parent_op now s).
Proof. unfold parent_op. wgo. Qed.
Lemma kd_start now s : kd s (fst (start now s)).
Proof.
  assert (K : kd s (set_sec now s)) by now apply kd_intro.
  unfold start. destruct (nst s); [apply kd_refl|..]; cbv zeta; wmvn K s1; wgo.
Qed.
Lemma up_proc n now feed s s' : is_up s -> ~ narrow_feed (my_subs s) feed -> proc n now feed s = Some s' -> is_up s'.
Proof.
  intros U NW. unfold proc. cbv zeta. set (s1 := if sec s <? now then set_sec now s else s).
  assert (K : kd s s1) by (subst s1; destruct (_ <? _); now apply kd_intro).
  assert (NW1 : ~ narrow_feed (my_subs s1) feed) by (unfold my_subs in *; now rewrite (U_self _ _ K)).
  apply (up_kd _ _ K) in U. clearbody s1. clear K NW s.
  assert (U2 : is_up (sweep (length (connecting (fold_left proc_one feed s1))) now (fold_left proc_one feed s1))).
  { eapply up_kd; [|exact U]. eapply kd_trans; [apply kd_procs; [apply U|exact NW1]|apply kd_sweep]. }
  set (s2 := sweep _ now _) in *. clearbody s2. destruct (U) as (_ & _ & F). rewrite F.
  assert (Y : forall s5, ping_loop n now None (parent_op now s2) = Some s5 -> is_up (stop_if_shut (collect (fst (dispatch_self s5))))).
  { intros s5 E. apply kd_ping_loop in E. apply up_stop. eapply up_kd; [|exact U2].
    eapply kd_trans; [apply kd_parent_op|]. eapply kd_trans; [exact E|]. eapply kd_trans; [apply kd_dispatch_self|apply kd_collect]. }
  destruct (nst s1); [intros [= <-]; exact U|..];
    (destruct (ping_loop n now None (parent_op now s2)) as [s5|]; [|discriminate]; intros [= <-]; auto).
Qed.
Lemma up_step n ev s s' : is_up s -> ~ fatal ev s -> step n ev s = Some s' -> is_up s'.
Proof.
  intros U NF. unfold step, step_ret.
  destruct ev as [i x|now|a|a|a i|i|to ty b w q|to l q|z| |now feed|l|i|o l]; cbn [option_map fst fatal] in *; try tauto;
    try (intros [= <-]; refine (up_kd _ _ _ U); eauto with kd; fail).
  - intros [= <-]. refine (up_kd _ _ _ U). apply kd_start.
  - intros [= <-]. refine (up_kd _ _ _ U). destruct (get_endpoint s i); [apply kd_connect_ep|apply kd_refl].
  - destruct (proc n now feed s) as [s1|] eqn:E; [|discriminate]. intros [= <-]. eapply up_proc; eauto.
  - intros [= <-]. unfold poll. destruct (U) as (SN & _ & F). rewrite F. apply up_stop. refine (up_kd _ _ _ U).
    eapply kd_trans; [apply (kd_ios l); [exact SN|exact NF]|]. eapply kd_trans; [apply kd_dispatch_self|apply kd_collect].
  - intros [= <-]. refine (up_kd _ _ _ U). apply kd_io_step; trivial. apply U.
  - intros [= <-]. refine (up_kd _ _ _ U). now apply kd_intro.
Qed.
(** None of the calls of a history is of that kind. *)
Fixpoint peaceful (n : nat) (evs : list event) (s : node) : Prop :=
  match evs with
  | [] => True
  | ev :: r => ~ fatal ev s /\ match step n ev s with Some s' => peaceful n r s' | None => True end
  end.
Lemma up_run n evs : forall s s', is_up s -> peaceful n evs s -> run n evs s = Some s' -> is_up s'.
Proof.
  induction evs as [|ev r IH]; intros s s' U P R; cbn [run peaceful] in *; [injection R as <-; exact U|].
  destruct P as [P1 P2]. destruct (step n ev s) as [s1|] eqn:E; [|discriminate]. refine (IH s1 s' _ P2 R). exact (up_step n ev s s1 U P1 E).
Qed.

(** ** C66 *)
Theorem C66_stays_up n pre evs s s' : run n pre new_node = Some s -> self s <> None -> phase_of (rev (log s)) = Some Up -> fl_shut s = false ->
  peaceful n evs s -> run n evs s = Some s' ->
  phase_of (rev (log s')) = Some Up /\ fl_shut s' = false.
Proof.
  intros R SN PH F P E. assert (U : is_up s).
  { split; [exact SN|]. split; [|exact F]. assert (X : updown s) by (apply reachable_updown; now exists n, pre).
    unfold updown in X. now rewrite PH in X. }
  apply (up_run _ _ _ _ U P) in E as U'. destruct U' as (_ & A & B). split; [|exact B].
  assert (X : updown s') by (apply reachable_updown; exists n, (pre ++ evs); now rewrite run_app, R).
  unfold updown in X. destruct (phase_of (rev (log s'))) as [[]|]; trivial; [congruence|destruct X; congruence|contradiction].
Qed.

(** Calls that are harmless in every state. *)
Lemma peaceful_always n evs : Forall (fun ev => forall s, ~ fatal ev s) evs -> forall s, peaceful n evs s.
Proof.
  induction 1 as [|ev r H F IH]; intro s; cbn [peaceful]; [exact Logic.I|]. split; [apply H|]. destruct (step n ev s); auto.
Qed.
(** The parent of [PropParent] closes the connection, the next attempt is refused, and so
    on: the node stays up. *)
Definition lost : list event := [EIo (IClosed 1); EPoll []; EProc 105 []; EIo (IConnected 3 (-1)); EPoll []; EProc 120 []].
Example C66_case : exists s s', run fuel0 (up0 ++ EStart 100 :: up1) new_node = Some s /\ self s <> None /\ phase_of (rev (log s)) = Some Up /\
  fl_shut s = false /\ peaceful fuel0 lost s /\ run fuel0 lost s = Some s' /\ parent s <> None /\ parent s' = None /\ nst s' = NConnecting.
Proof.
  pose (f := fun s => (my_id s, phase_of (rev (log s)), fl_shut s, match parent s with Some p => e_id p | None => 0 end)).
  assert (E : option_map f (run fuel0 (up0 ++ EStart 100 :: up1) new_node) = Some (65536, Some Up, false, 1)) by (vm_compute; reflexivity).
  assert (E' : option_map (fun s => (parent s, nst s)) (run fuel0 ((up0 ++ EStart 100 :: up1) ++ lost) new_node) = Some (None, NConnecting)) by (vm_compute; reflexivity).
  rewrite run_app in E'. destruct (run fuel0 (up0 ++ EStart 100 :: up1) new_node) as [s|]; [|discriminate E].
  cbn [option_map] in E. injection E as H1 H2 H3 H4. destruct (run fuel0 lost s) as [s'|] eqn:RR; [|discriminate E']. cbn [option_map] in E'. injection E' as G1 G2.
  exists s, s'. split; [reflexivity|]. split; [intro X; unfold my_id in H1; rewrite X in H1; discriminate H1|]. split; [exact H2|]. split; [exact H3|].
  split.
  { apply peaceful_always. unfold lost. repeat constructor; intros x X; cbn in X; trivial.
    - destruct X as (c & l & k & m & [] & _).
    - destruct X as (c & l & k & m & [] & _). }
  split; [exact RR|]. split; [intro X; rewrite X in H4; discriminate H4|]. split; [exact G1|exact G2].
Qed.
(** What is not so: a peer that is reached at the address of the parent and registers a
    range that does not cover the one of the node takes the active node down. *)
Definition impostor : list event := [EIo (IClosed 1); EPoll []; EProc 105 []; EIo (IConnected 3 0);
  EIo (IRecv 3 (RMsg 10 (msg0 1 (BReg false (reg0 1 [])))))].
Theorem C66_wrong_parent_refuted : exists s s', run fuel0 (up0 ++ EStart 100 :: up1) new_node = Some s /\ phase_of (rev (log s)) = Some Up /\
  run fuel0 impostor s = Some s' /\ phase_of (rev (log s')) = Some Down /\ fl_shut s' = true.
Proof.
  pose (f := fun s => phase_of (rev (log s))).
  assert (E : option_map f (run fuel0 (up0 ++ EStart 100 :: up1) new_node) = Some (Some Up)) by (vm_compute; reflexivity).
  assert (E' : option_map (fun s => (phase_of (rev (log s)), fl_shut s)) (run fuel0 ((up0 ++ EStart 100 :: up1) ++ impostor) new_node) = Some (Some Down, true)) by (vm_compute; reflexivity).
  rewrite run_app in E'. destruct (run fuel0 (up0 ++ EStart 100 :: up1) new_node) as [s|]; [|discriminate E].
  cbn [option_map] in E. injection E as H1. destruct (run fuel0 impostor s) as [s'|] eqn:RR; [|discriminate E']. cbn [option_map] in E'. injection E' as G1 G2.
  exists s, s'. split; [reflexivity|]. split; [exact H1|]. split; [exact RR|]. split; [exact G1|exact G2].
Qed.

Print Assumptions C66_stays_up.
Print Assumptions C66_wrong_parent_refuted.
