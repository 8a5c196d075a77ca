(** A node that is not initialised does nothing. *)
From Verif Require Import Base Subnet SubnetSpec Route RouteProof Address NodeTypes NodeConn NodeCore NodeMsg Node
  NodeFrame NodeReset NodeInv NodeKeep NodeSteps NodeCtx NodeReach NodeSpec NodeLog NodeNotice NodeTime.
Local Open Scope N_scope.
Ltac Zify.zify_post_hook ::= idtac.

(** ** What the last part of a reset leaves alone *)
(** [kq s s']: no polled connection and no connection of an endpoint is added; once the
    garbage lists are closed nothing is put into them. *)
Record kq (s s' : node) : Prop := {
  Q_procs : procs s = [] -> procs s' = [];
  Q_self : self s' = self s;
  Q_conns : forall e, conns (es s e) = [] -> conns (es s' e) = [];
  Q_shut : fl_gcreset s = true -> fl_gcreset s' = true;
  Q_gce : fl_gcreset s = true -> gce s' = gce s;
  Q_gcc : fl_gcreset s = true -> gcc s' = gcc s }.
Lemma kq_same s s' : procs s' = procs s -> self s' = self s -> es s' = es s -> fl_gcreset s' = fl_gcreset s ->
  gce s' = gce s -> gcc s' = gcc s -> kq s s'.
Proof. intros E1 E2 E3 E4 E5 E6. constructor; intros; rewrite ?E3; congruence. Qed.
Lemma kq_trans s1 s2 s3 : kq s1 s2 -> kq s2 s3 -> kq s1 s3.
Proof.
  intros [A B C D E F] [A' B' C' D' E' F']. constructor; auto; try congruence.
  - intro G. rewrite E'; auto.
  - intro G. rewrite F'; auto.
Qed.
Lemma kq_refl s : kq s s. Proof. now apply kq_same. Qed.
Ltac kfr := apply kq_same; first [reflexivity | fr1].
Lemma kq_fold {A} (f : node -> A -> node) l : (forall s x, kq s (f s x)) -> forall s, kq s (fold_left f l s).
Proof. intro F. induction l as [|x l IH]; intro s; cbn [fold_left]; [apply kq_refl|]. eapply kq_trans; [apply F|apply IH]. Qed.
Lemma kq_rm_timer c s : kq s (rm_timer c s). Proof. kfr. Qed.
Lemma kq_set_status c v s : kq s (set_status c v s). Proof. kfr. Qed.
Lemma kq_on_disconnect c s : kq s (on_disconnect c s). Proof. kfr. Qed.
Lemma kq_on_c c f s : kq s (on_c c f s). Proof. now apply kq_same. Qed.
Lemma kq_emit t s : kq s (emit t s). Proof. now apply kq_same. Qed.
Lemma kq_rm_proc a s : kq s (rm_proc a s).
Proof. constructor; trivial. cbn. now intros ->. Qed.
Lemma kq_disconnect c s : kq s (disconnect c s).
Proof.
  unfold disconnect. cbv zeta.
  assert (G : kq s (let s := set_status c Disconnecting s in
      let s := match k_kind (cs s c) with KNone => s | _ => emit (TClose c) s end in
      let s := on_disconnect c s in
      let s := if k_proc (cs s c) then on_c c (set_k_proc false) (rm_proc (k_addr (cs s c)) s) else s in
      set_status c Disconnected (on_c c (set_k_kind KNone) s))).
  { cbv zeta. eapply kq_trans; [apply (kq_set_status c Disconnecting s)|]. set (s1 := set_status c Disconnecting s). clearbody s1.
    set (s2 := match k_kind (cs s1 c) with KNone => s1 | _ => emit (TClose c) s1 end).
    assert (A : kq s1 s2) by (unfold s2; destruct (k_kind (cs s1 c)); first [apply kq_refl | apply kq_emit]).
    eapply kq_trans; [exact A|]. clearbody s2. clear A.
    eapply kq_trans; [apply (kq_on_disconnect c s2)|]. set (s3 := on_disconnect c s2). clearbody s3.
    eapply kq_trans; [|apply kq_set_status]. eapply kq_trans; [|apply kq_on_c].
    destruct (k_proc _); [|apply kq_refl]. eapply kq_trans; [apply kq_rm_proc|apply kq_on_c]. }
  destruct (k_st (cs s c)); first [exact G | apply kq_refl].
Qed.
Lemma kq_conn_close c s : kq s (conn_close c s).
Proof. eapply kq_trans; [apply (kq_rm_timer c)|apply kq_disconnect]. Qed.
Lemma kq_gc_conn c s : kq s (gc_conn c s).
Proof.
  unfold gc_conn. destruct (fl_gcreset s) eqn:F; [apply kq_refl|]. cbn [orb]. destruct (fl_gcc s); [apply kq_refl|].
  constructor; trivial; cbn; congruence.
Qed.
Lemma kq_gc_ep x s : kq s (gc_ep x s).
Proof.
  unfold gc_ep. destruct (fl_gcreset s) eqn:F; [apply kq_refl|]. cbn [orb]. destruct (fl_gce s); [apply kq_refl|].
  constructor; trivial; cbn; congruence.
Qed.
Lemma kq_conn_fin c s : kq s (conn_fin c s).
Proof. unfold conn_fin. eapply kq_trans; [apply kq_gc_conn|apply kq_on_c]. Qed.
Lemma kq_conn_reset_in c s : kq s (conn_reset_in c s).
Proof.
  unfold conn_reset_in. eapply kq_trans; [apply (kq_conn_close c)|]. eapply kq_trans; [|apply kq_conn_fin]. apply kq_on_c.
Qed.
Lemma kq_on_e e f s : (conns (es s e) = [] -> conns (f (es s e)) = []) -> kq s (on_e e f s).
Proof.
  intro H. constructor; trivial. intros x X. rewrite es_on_e. destruct (N.eqb_spec x e) as [->|]; auto.
Qed.
Lemma kq_clear_ping e s : kq s (clear_ping e s).
Proof.
  unfold clear_ping. destruct (d_timer _); [|apply kq_refl].
  eapply kq_trans with (s2 := set_pings (filter (fun p => negb (snd p =? e)) (pings s)) s); [now apply kq_same|].
  apply kq_on_e. trivial.
Qed.
Lemma kq_ep_reset b g e s : kq s (ep_reset b g e s).
Proof.
  unfold ep_reset. cbv zeta.
  set (s1 := match d_ctrl (es s e) with Some c => _ | None => s end).
  assert (A : kq s s1).
  { unfold s1. destruct (d_ctrl (es s e)) as [c|]; [|apply kq_refl]. cbv zeta. destruct (opt_eqb _ _); [apply kq_on_c|].
    eapply kq_trans; [|apply kq_conn_reset_in]. apply kq_on_c. }
  eapply kq_trans; [exact A|]. clearbody s1. clear A.
  eapply kq_trans; [|apply kq_on_e; trivial].
  assert (B : forall u, kq u (if g then u else gc_ep (d_ep (es u e)) u)) by (intro u; destruct g; [apply kq_refl|apply kq_gc_ep]).
  eapply kq_trans; [|apply B]. eapply kq_trans; [|apply kq_clear_ping]. eapply kq_trans; [|apply kq_on_e; reflexivity].
  apply kq_fold. intros. apply kq_conn_reset_in.
Qed.
Lemma kq_conn_reset c s : kq s (conn_reset c s).
Proof.
  unfold conn_reset. cbv zeta. eapply kq_trans; [|apply kq_conn_fin]. eapply kq_trans; [apply (kq_conn_close c)|].
  generalize (conn_close c s). clear s. intro s.
  destruct (k_bind (cs s c)) as [e|]; [|apply kq_refl]. destruct (opt_eqb _ _); [apply kq_ep_reset|].
  destruct (memb _ _) eqn:M; [|apply kq_refl]. set (s1 := on_e e _ _).
  assert (K : kq s s1).
  { unfold s1. eapply kq_trans; [apply (kq_on_c c (set_k_bind None))|]. apply kq_on_e. rewrite es_on_c. unfold conns.
    apply memb_in in M. intro X. exfalso. destruct (d_ctrl (es s e)); [discriminate|]. cbn in X. rewrite X in M. destruct M. }
  eapply kq_trans; [exact K|]. destruct (d_data (es s1 e)); [apply kq_ep_reset|apply kq_refl].
Qed.
Lemma kq_ep_drop e s : kq s (ep_drop e s).
Proof. unfold ep_drop. destruct (ep_held s e); [apply kq_refl|apply kq_ep_reset]. Qed.
Lemma kq_conn_drop c s : kq s (conn_drop c s).
Proof. unfold conn_drop. destruct (conn_held s c); [apply kq_refl|apply kq_conn_reset]. Qed.
Lemma kq_send_reg r c z q s : kq s (fst (send_reg r c z q s)).
Proof. apply kq_same; apply keep_send_reg; trivial; exact _. Qed.
Lemma kq_new c s : kq s (on_new_connection c s).
Proof.
  unfold on_new_connection. destruct (_ && _); [|apply kq_emit].
  assert (K1 : kq s (fst (alloc_seq (emit (TNew c) s)))) by (now apply kq_same).
  destruct (alloc_seq _) as [s1 q]. cbn [fst] in *. pose proof (kq_send_reg false c 0%Z q s1) as K2.
  destruct (send_reg _ _ _ _ _) as [s2 r]. cbn [fst] in *. eapply kq_trans; [exact K1|]. eapply kq_trans; [exact K2|].
  destruct (r <? 0)%Z; [apply kq_conn_reset|apply kq_refl].
Qed.
Lemma kq_connected c z s : kq s (connected_cb c z s).
Proof.
  unfold connected_cb. cbv zeta. eapply kq_trans; [|apply kq_conn_drop]. destruct (z <? 0)%Z.
  - eapply kq_trans; [|apply kq_conn_reset]. now apply kq_same.
  - eapply kq_trans; [|apply kq_new]. eapply kq_trans; [|apply kq_on_c].
    eapply kq_trans; [|apply kq_set_status]. now apply kq_same.
Qed.
Lemma kq_listened c z s : kq s (listened c z s).
Proof.
  unfold listened. eapply kq_trans; [|apply kq_conn_drop]. unfold listen_cb. destruct (z <? 0)%Z.
  - eapply kq_trans; [|apply kq_set_status]. now apply kq_same.
  - eapply kq_trans; [|apply kq_new]. eapply kq_trans; [|apply kq_on_c].
    eapply kq_trans; [|apply kq_set_status]. now apply kq_same.
Qed.
Lemma kq_orc s : kq s (fst (take_orc s)). Proof. kfr. Qed.
Lemma kq_connects l : forall s, kq s (finish_connects l s).
Proof.
  induction l as [|c l IH]; intro s; cbn [finish_connects]; [apply kq_refl|].
  pose proof (kq_orc s) as K. destruct (take_orc s) as [s1 z]. cbn [fst] in K.
  eapply kq_trans; [exact K|]. eapply kq_trans; [apply kq_connected|apply IH].
Qed.
Lemma kq_listens l : forall s, kq s (finish_listens l s).
Proof.
  induction l as [|c l IH]; intro s; cbn [finish_listens]; [apply kq_refl|].
  pose proof (kq_orc s) as K. destruct (take_orc s) as [s1 z]. cbn [fst] in K.
  eapply kq_trans; [exact K|]. eapply kq_trans; [apply kq_listened|apply IH].
Qed.
Lemma kq_remove_endpoint i x s : kq s (fst (remove_endpoint i x s)). Proof. kfr. Qed.
Lemma kq_drop_connecting n : forall s, kq s (drop_connecting n s).
Proof.
  induction n as [|n IH]; intro s; cbn [drop_connecting]; [apply kq_refl|]. destruct (connecting s) as [|[t c] r]; [apply kq_refl|].
  cbv zeta. eapply kq_trans; [apply (kq_conn_reset c)|]. generalize (conn_reset c s). clear s. intro u. eapply kq_trans; [|apply IH].
  destruct (connecting u) as [|[t' c'] r']; [apply kq_refl|]. destruct (c' =? c); [now apply kq_same|apply kq_refl].
Qed.

(** ** The state after a reset *)
(** Nothing is linked, polled, timed, pending, queued or waiting to be collected, and the
    own endpoint has no connection. *)
Record asleep (s : node) : Prop := {
  Z_nst : nst s = NCreated;
  Z_parent : parent s = None;
  Z_routes : routes s = [];
  Z_pings : pings s = [];
  Z_connecting : connecting s = [];
  Z_pend : pend s = [];
  Z_lpend : lpend s = [];
  Z_procs : procs s = [];
  Z_gce : gce s = [];
  Z_gcc : gcc s = [];
  Z_qdata : qdata s = [];
  Z_qcmd : qcmd s = [];
  Z_act : fl_act s = false;
  Z_flags : idle s;
  Z_own : forall e, self s = Some e -> conns (es s (e_ref e)) = [] }.
Lemma asleep_new : asleep new_node.
Proof. now constructor. Qed.

Lemma reset_rest s : fl_reset s = false ->
  procs (reset s) = [] /\ gce (reset s) = [] /\ gcc (reset s) = [] /\
  (forall e, self (reset s) = Some e -> conns (es (reset s) (e_ref e)) = []).
Proof.
  intro F. unfold reset. rewrite F. cbv zeta.
  generalize (emit TBegin (set_fl_reset true s)). clear s F. intro s1.
  generalize (S (2 * length (qcmd s1) + length (qdata s1))). intro n. generalize (drain n s1). clear n s1. intro s2.
  set (s3 := fold_left _ (procs s2) s2). clearbody s3.
  assert (P4 : procs (set_procs [] s3) = []) by reflexivity.
  set (s4 := set_procs [] s3) in *. clearbody s4. clear s2 s3.
  set (s5 := match parent s4 with Some p => _ | None => s4 end).
  assert (K : kq s4 s5).
  { unfold s5. destruct (parent s4) as [p|]; [|apply kq_refl]. eapply kq_trans; [|apply kq_ep_drop]. apply kq_remove_endpoint. }
  apply K in P4. clear K. clearbody s5. clear s4.
  set (s6 := fold_left (fun s e => emit (TRemoved e) s) _ (set_routes [] s5)).
  assert (K : kq s5 s6).
  { unfold s6. eapply kq_trans with (s2 := set_routes [] s5); [now apply kq_same|]. apply kq_fold. intros. apply kq_emit. }
  apply K in P4. clear K. set (old := map _ (routes s5)). clearbody s6 old. clear s5.
  assert (K : kq s6 (fold_left drop_ep old s6)) by (apply kq_fold; intros; apply kq_ep_drop).
  apply K in P4. clear K. set (s7 := fold_left drop_ep old s6) in *. clearbody s7. clear s6 old.
  pose proof (kq_drop_connecting (length (connecting s7)) s7) as K. apply K in P4. clear K.
  set (s8 := drop_connecting (length (connecting s7)) s7) in *. clearbody s8. clear s7.
  set (s9 := match self s8 with Some e => ep_reset None false (e_ref e) s8 | None => s8 end).
  assert (K : kq s8 s9) by (unfold s9; destruct (self s8); [apply kq_ep_reset|apply kq_refl]).
  assert (O : forall e, self s9 = Some e -> conns (es s9 (e_ref e)) = []).
  { intros e E. rewrite (Q_self _ _ K) in E. unfold s9. rewrite E. rewrite es_ep_reset, N.eqb_refl. reflexivity. }
  apply K in P4. clear K. clearbody s9. clear s8.
  assert (O10 : forall e, self (set_gce [] (set_fl_gcreset true s9)) = Some e -> conns (es (set_gce [] (set_fl_gcreset true s9)) (e_ref e)) = []) by exact O.
  assert (P10 : procs (set_gce [] (set_fl_gcreset true s9)) = []) by exact P4.
  assert (F10 : fl_gcreset (set_gce [] (set_fl_gcreset true s9)) = true) by reflexivity.
  assert (G10 : gce (set_gce [] (set_fl_gcreset true s9)) = []) by reflexivity.
  set (s10 := set_gce [] (set_fl_gcreset true s9)) in *. clearbody s10. generalize (gce (set_fl_gcreset true s9)). intro l. clear s9 O P4.
  assert (K : kq s10 (fold_left drop_ep (map e_ref l) s10)) by (apply kq_fold; intros; apply kq_ep_drop).
  set (s11 := fold_left drop_ep (map e_ref l) s10) in *. clearbody s11. clear l.
  assert (P11 : procs (set_gcc [] s11) = []) by (now apply (Q_procs _ _ K)).
  assert (F11 : fl_gcreset (set_gcc [] s11) = true) by (now apply (Q_shut _ _ K)).
  assert (G11 : gce (set_gcc [] s11) = []) by (change (gce s11 = []); now rewrite (Q_gce _ _ K)).
  assert (H11 : gcc (set_gcc [] s11) = []) by reflexivity.
  assert (O11 : forall e, self (set_gcc [] s11) = Some e -> conns (es (set_gcc [] s11) (e_ref e)) = []).
  { intros e E. change (self s11 = Some e) in E. rewrite (Q_self _ _ K) in E. apply (Q_conns _ _ K). auto. }
  set (s12 := set_gcc [] s11) in *. clearbody s12. clear s10 s11 P10 F10 G10 O10 K.
  match goal with |- context [finish_listens (lpend ?a) ?a] => set (s15 := a) end.
  assert (K : kq s12 (finish_listens (lpend s15) s15)).
  { eapply kq_trans; [|apply kq_listens]. unfold s15. eapply kq_trans; [|apply kq_connects].
    eapply kq_trans with (s2 := fold_left (fun s p => clear_ping (snd p) (ep_reset None false (snd p) s)) (pings s12) s12); [|now apply kq_same].
    apply kq_fold. intros u p. eapply kq_trans; [apply (kq_ep_reset None false (snd p))|apply kq_clear_ping]. }
  clearbody s15. set (s16 := finish_listens (lpend s15) s15) in *. clearbody s16. clear s15.
  split; [exact (Q_procs _ _ K P11)|]. split; [exact (eq_trans (Q_gce _ _ K F11) G11)|].
  split; [exact (eq_trans (Q_gcc _ _ K F11) H11)|].
  intros e E. change (self s16 = Some e) in E. change (conns (es s16 (e_ref e)) = []). rewrite (Q_self _ _ K) in E.
  apply (Q_conns _ _ K). auto.
Qed.
Lemma asleep_reset s : good s -> asleep (reset s).
Proof.
  intros [H D]. destruct (idle_flags s D) as (F & _). destruct (reset_rest s F) as (A & B & C & O).
  destruct (reset_split s H F) as (m & _ & P & R & PI & CO & PE & LP & E). rewrite E in *.
  constructor; trivial; reflexivity.
Qed.

(** ** What a sleeping node does *)
Lemma quiet_ep_reset b g e s : conns (es s e) = [] -> log (ep_reset b g e s) = log s.
Proof.
  intro C. unfold conns in C. unfold ep_reset. cbv zeta. destruct (d_ctrl (es s e)); [discriminate|]. rewrite C. cbn [fold_left].
  set (s1 := on_e e _ s). change (log s) with (log s1). clearbody s1. clear s C. unfold clear_ping, gc_ep.
  destruct (d_timer _), g; try reflexivity; destruct (_ || _); reflexivity.
Qed.
Lemma dispatch_empty s : qdata s = [] -> qcmd s = [] -> fl_self s = false -> dispatch_self s = (s, O).
Proof.
  intros D C F. unfold dispatch_self. rewrite F. cbv zeta. set (n := if _ =? 0 then _ else _). clearbody n.
  assert (E : set_fl_self false (set_fl_self true s) = s) by (destruct s; cbn in *; now subst).
  assert (D1 : qdata (set_fl_self true s) = []) by exact D. assert (C1 : qcmd (set_fl_self true s) = []) by exact C.
  destruct n as [|n]; cbn [self_data_loop self_cmd_loop]; [now rewrite E|]. rewrite D1.
  destruct n as [|n]; cbn [self_cmd_loop]; [now rewrite E|]. rewrite C1. now rewrite E.
Qed.
Lemma log_reset_asleep s : Inv s -> asleep s -> log (reset s) = TReset :: TBegin :: log s.
Proof.
  intros I Z. destruct (idle_flags s (Z_flags s Z)) as (F & _ & F1 & _). unfold reset. rewrite F. cbv zeta.
  change (qcmd (emit TBegin (set_fl_reset true s))) with (qcmd s). change (qdata (emit TBegin (set_fl_reset true s))) with (qdata s).
  rewrite (Z_qcmd s Z), (Z_qdata s Z). cbn [length Nat.mul Nat.add drain].
  rewrite (dispatch_empty (emit TBegin (set_fl_reset true s)) (Z_qdata s Z) (Z_qcmd s Z) F1).
  change (procs (emit TBegin (set_fl_reset true s))) with (procs s). rewrite (Z_procs s Z). cbn [fold_left].
  set (s1 := set_procs [] (emit TBegin (set_fl_reset true s))).
  change (parent s1) with (parent s). rewrite (Z_parent s Z). change (routes s1) with (routes s). rewrite (Z_routes s Z).
  cbn [map fold_left]. change (connecting (set_routes [] s1)) with (connecting s). rewrite (Z_connecting s Z). cbn [length drop_connecting].
  set (s2 := set_routes [] s1). change (self s2) with (self s).
  set (s3 := match self s with Some e => ep_reset None false (e_ref e) s2 | None => s2 end).
  assert (A : log s3 = TBegin :: log s /\ pend s3 = [] /\ lpend s3 = [] /\ pings s3 = [] /\
    forall x, In x (gce s3) -> conns (es s3 (e_ref x)) = []).
  { unfold s3. destruct (self s) as [e|] eqn:E.
    - assert (C : conns (es s2 (e_ref e)) = []) by exact (Z_own s Z e E).
      assert (AL : alive s e) by (apply (I_tab s I); now left). destruct AL as [_ AL].
      split; [now rewrite quiet_ep_reset|]. split; [rewrite (keeps (f := pend)); exact (Z_pend s Z)|].
      split; [rewrite (keeps (f := lpend)); exact (Z_lpend s Z)|]. split; [eapply shrink_nil; [apply shrink_ereset|exact (Z_pings s Z)]|].
      intros x X. assert (G2 : gce s2 = []) by exact (Z_gce s Z).
      destruct (gce_ep_reset None false (e_ref e) s2) as [G|G]; rewrite G, G2 in X; [destruct X|].
      destruct X as [<-|[]]. change (es s2) with (es s) in *. rewrite AL. rewrite es_ep_reset, N.eqb_refl. reflexivity.
    - split; [reflexivity|]. split; [exact (Z_pend s Z)|]. split; [exact (Z_lpend s Z)|]. split; [exact (Z_pings s Z)|].
      assert (G2 : gce s2 = []) by exact (Z_gce s Z). rewrite G2. intros x []. }
  clearbody s3. clear s1 s2. destruct A as (L & PE & LP & PI & G).
  assert (B : forall l u, (forall x, In x l -> conns (es u (e_ref x)) = []) ->
    log (fold_left drop_ep (map e_ref l) u) = log u /\ pend (fold_left drop_ep (map e_ref l) u) = pend u /\
    lpend (fold_left drop_ep (map e_ref l) u) = lpend u /\ (pings u = [] -> pings (fold_left drop_ep (map e_ref l) u) = [])).
  { induction l as [|x l IH]; intros u H; cbn [map fold_left]; [auto|].
    destruct (IH (drop_ep u (e_ref x))) as (A1 & A2 & A3 & A4).
    { intros y Y. apply (Q_conns u); [apply kq_ep_drop|]. apply H. now right. }
    rewrite A1, A2, A3. unfold drop_ep, ep_drop in *. destruct (ep_held u (e_ref x)); [auto|].
    split; [apply quiet_ep_reset, H; now left|]. split; [fr1|]. split; [fr1|].
    intro P. apply A4. eapply shrink_nil; [apply shrink_ereset|exact P]. }
  change (gce (set_fl_gcreset true s3)) with (gce s3).
  destruct (B (gce s3) (set_gce [] (set_fl_gcreset true s3)) G) as (B1 & B2 & B3 & B4). specialize (B4 PI).
  change (log (set_gce [] (set_fl_gcreset true s3))) with (log s3) in B1.
  change (pend (set_gce [] (set_fl_gcreset true s3))) with (pend s3) in B2.
  change (lpend (set_gce [] (set_fl_gcreset true s3))) with (lpend s3) in B3.
  set (s4 := fold_left drop_ep (map e_ref (gce s3)) (set_gce [] (set_fl_gcreset true s3))) in *. clearbody s4.
  change (pings (set_gcc [] s4)) with (pings s4). rewrite B4. cbn [fold_left].
  change (pend (set_pings [] (set_gcc [] s4))) with (pend s4). rewrite B2, PE. cbn [finish_connects].
  change (lpend (set_pings [] (set_gcc [] s4))) with (lpend s4). rewrite B3, LP. cbn [finish_listens].
  change (TReset :: log s4 = TReset :: TBegin :: log s). now rewrite B1, L.
Qed.

(** ** Histories without an initialisation *)
Definition inits (ev : event) : bool := match ev with EInit _ _ => true | _ => false end.
(** The answer of each call before an initialisation; the calls that return nothing answer
    success here. *)
Definition answer (ev : event) : Z :=
  match ev with
  | EStart _ | EListen _ | EConnect _ | ESend _ _ _ _ _ | ECmd _ _ _ => E_NOT_INITED
  | EConnectEp _ _ => E_PARAMS
  | EDisconnect _ => E_NOT_FOUND
  | _ => E_OK
  end.
Definition marker (t : tr) : Prop := t = TBegin \/ t = TReset.
Definition silent (s s' : node) : Prop := exists l, log s' = l ++ log s /\ Forall marker l.
Lemma silent_same s s' : log s' = log s -> silent s s'. Proof. intro E. exists []. auto. Qed.
Lemma silent_trans s1 s2 s3 : silent s1 s2 -> silent s2 s3 -> silent s1 s3.
Proof.
  intros (l & L & A) (m & M & B). exists (m ++ l). split; [now rewrite M, L, app_assoc|]. apply Forall_app. auto.
Qed.
Lemma good_reset s : good s -> good (reset s).
Proof. intro G. apply (does_reset true s G). Qed.

Lemma step_asleep n ev s : good s -> asleep s -> inits ev = false ->
  exists s', step_ret n ev s = Some (s', answer ev) /\ asleep s' /\ silent s s'.
Proof.
  intros G Z NI. destruct (idle_flags s (Z_flags s Z)) as (_ & _ & F1 & _).
  assert (SAME : forall s', s' = s -> asleep s' /\ silent s s') by (intros s' ->; split; [exact Z|now apply silent_same]).
  assert (RS : asleep (reset s) /\ silent s (reset s)).
  { split; [now apply asleep_reset|]. exists [TReset; TBegin]. split; [apply log_reset_asleep; [apply G|exact Z]|].
    constructor; [now right|constructor; [now left|constructor]]. }
  destruct ev as [i x|now|a|a|a i|i|to ty b w q|to l q|z| |now feed|l|i|o l]; [discriminate|..]; cbn [step_ret answer].
  - unfold start. rewrite (Z_nst s Z). eexists. split; [reflexivity|now apply SAME].
  - unfold listen. rewrite (Z_nst s Z). eexists. split; [reflexivity|now apply SAME].
  - unfold connect. rewrite (Z_nst s Z). eexists. split; [reflexivity|now apply SAME].
  - assert (E : get_endpoint s i = None).
    { unfold get_endpoint, is_parent. rewrite (Z_parent s Z), (Z_routes s Z). now destruct (my_id s =? 0). }
    rewrite E. eexists. split; [reflexivity|now apply SAME].
  - unfold node_disconnect. rewrite (Z_parent s Z), (Z_routes s Z). cbn [find_route].
    eexists. split; [reflexivity|now apply SAME].
  - unfold send_data. rewrite (Z_nst s Z). eexists. split; [reflexivity|now apply SAME].
  - unfold send_custom. rewrite (Z_nst s Z). eexists. split; [reflexivity|now apply SAME].
  - eexists. split; [reflexivity|]. unfold shutdown. destruct (fl_shut s); [now apply SAME|]. cbv zeta.
    change (fl_act (set_fl_shut true s)) with (fl_act s). rewrite (Z_act s Z). split; [destruct Z; now constructor|now apply silent_same].
  - eexists. split; [reflexivity|exact RS].
  - unfold proc. cbv zeta. set (s1 := if sec s <? now then set_sec now s else s).
    assert (A : asleep s1 /\ silent s s1).
    { unfold s1. destruct (sec s <? now); [split; [destruct Z; now constructor|now apply silent_same]|now apply SAME]. }
    clearbody s1. destruct A as [A B]. rewrite (Z_nst s1 A). cbn [option_map]. eexists. split; [reflexivity|auto].
  - eexists. split; [reflexivity|]. unfold poll. rewrite (dispatch_empty s (Z_qdata s Z) (Z_qcmd s Z) F1). cbn [fst].
    destruct (fl_shut s) eqn:SH; [exact RS|].
    assert (E : forall l, fold_left (fun s i => io_step i s) l s = s).
    { clear l NI. induction l as [|i l IH]; cbn [fold_left]; [reflexivity|]. unfold io_step at 2. rewrite (Z_nst s Z). exact IH. }
    rewrite E, (dispatch_empty s (Z_qdata s Z) (Z_qcmd s Z) F1). cbn [fst].
    unfold collect. cbv zeta. rewrite (Z_gce s Z), (Z_gcc s Z). unfold stop_if_shut. rewrite SH. now apply SAME.
  - unfold io_step. rewrite (Z_nst s Z). eexists. split; [reflexivity|now apply SAME].
  - eexists. split; [reflexivity|]. split; [destruct Z; now constructor|now apply silent_same].
Qed.
Lemma run_asleep n evs : forall s, good s -> asleep s -> forallb (fun ev => negb (inits ev)) evs = true ->
  exists s', run n evs s = Some s' /\ asleep s' /\ silent s s'.
Proof.
  induction evs as [|ev r IH]; intros s G Z NI; cbn [run].
  - exists s. split; [reflexivity|]. split; [exact Z|now apply silent_same].
  - cbn [forallb] in NI. apply andb_true_iff in NI as [N1 N2]. apply negb_true_iff in N1.
    destruct (step_asleep n ev s G Z N1) as (s1 & S & Z1 & L1).
    assert (S' : step n ev s = Some s1) by (unfold step; now rewrite S).
    rewrite S'. pose proof (good_step n ev s s1 G S') as G1. destruct (IH s1 G1 Z1 N2) as (s' & R & Z' & L').
    exists s'. split; [exact R|]. split; [exact Z'|]. eapply silent_trans; eauto.
Qed.

(** ** Every node that is not initialised sleeps *)
Lemma asleep_init i x s : (nst s = NCreated -> asleep s) -> good s -> nst (fst (init i x s)) = NCreated -> asleep (fst (init i x s)).
Proof.
  intros W G. unfold init. set (s1 := match nst s with NCreated => s | _ => reset s end).
  assert (Z : asleep s1) by (unfold s1; destruct (nst s); [now apply W|now apply asleep_reset..]).
  clearbody s1. cbv zeta. destruct (endpoint_subnets i (x_nets x)) as [subs|].
  - destruct (ep_create _ _ _ _ _) as [s2 e]. cbv zeta. cbn [fst]. discriminate.
  - intros _. cbn [fst]. destruct Z; now constructor.
Qed.
Definition lively (s : node) : Prop := good s /\ nst s <> NCreated.
Lemma lively_steps a s s' : lively s -> steps a s s' -> kc s s' -> lively s'.
Proof.
  intros [G N] S K. split; [eapply (does_steps true); eauto|]. eapply carry_n; [eapply steps_grow; [apply G|exact S]|exact N].
Qed.
Lemma lively_round s : lively s -> nst (stop_if_shut (collect (fst (dispatch_self s)))) = NCreated ->
  asleep (stop_if_shut (collect (fst (dispatch_self s)))).
Proof.
  intro L. assert (L1 : lively (fst (dispatch_self s))) by (eapply (lively_steps true); [exact L|apply st_dispatch_self, L|apply kc_dispatch_self]).
  assert (L2 : lively (collect (fst (dispatch_self s)))).
  { destruct (idle_flags _ (proj2 (proj1 L1))) as (_ & _ & _ & F1 & F2).
    eapply (lively_steps true); [exact L1|apply st_collect, L1|now apply kc_collect]. }
  unfold stop_if_shut. destruct (fl_shut _); [intros _; now apply asleep_reset, L2|]. intro N. now elim (proj2 L2).
Qed.
Lemma asleep_proc n now feed s s' : lively s -> proc n now feed s = Some s' -> nst s' = NCreated -> asleep s'.
Proof.
  intro L. unfold proc. set (s1 := if sec s <? now then set_sec now s else s).
  assert (A : lively s1 /\ now <= sec s1).
  { unfold s1. destruct (N.ltb_spec (sec s) now) as [B|B]; [|auto]. split; [|cbn; lia]. split; [|exact (proj2 L)].
    apply (does_sec true); [apply L|lia]. }
  clearbody s1. clear L. destruct A as [L W]. cbv zeta. intro X.
  assert (X' : (if fl_shut s1 then Some (reset (fst (dispatch_self s1)))
      else
        match ping_loop n now None (parent_op now (sweep (length (connecting (fold_left proc_one feed s1))) now (fold_left proc_one feed s1))) with
        | None => None
        | Some s => Some (stop_if_shut (collect (fst (dispatch_self s))))
        end) = Some s') by (destruct L as [_ L]; destruct (nst s1); [now elim L|exact X..]).
  clear X. destruct (fl_shut s1).
  - injection X' as <-. intros _. apply asleep_reset. apply (does_dispatch_self true), L.
  - assert (L1 : lively (fold_left proc_one feed s1)).
    { eapply lively_steps; [exact L|apply st_procs_all; apply L|]. apply kc_fold, kc_proc_one. }
    assert (W1 : now <= sec (fold_left proc_one feed s1)).
    { destruct (kc_fold proc_one kc_proc_one feed s1) as [_ _ E _]. now rewrite E. }
    set (s2 := fold_left proc_one feed s1) in *. clearbody s2. set (k := length _) in X'. clearbody k.
    assert (L2 : lively (sweep k now s2)) by (eapply (lively_steps true); [exact L1|apply st_sweep, L1|apply kc_sweep]).
    assert (W2 : now <= sec (sweep k now s2)) by (destruct (kc_sweep k now s2) as [_ _ E _]; now rewrite E).
    set (s3 := sweep k now s2) in *. clearbody s3.
    assert (L3 : lively (parent_op now s3)) by (eapply (lively_steps true); [exact L2|apply st_parent_op, L2|apply kc_parent_op]).
    assert (W3 : now <= sec (parent_op now s3)) by (destruct (kc_parent_op now s3) as [_ _ E _]; now rewrite E).
    set (s4 := parent_op now s3) in *. clearbody s4.
    destruct (ping_loop n now None s4) as [s5|] eqn:PL; [|discriminate]. injection X' as <-.
    apply lively_round. eapply (lively_steps true); [exact L3| |eapply kc_ping_loop; exact PL].
    apply (st_ping_loop true now n None s4 s5); [apply L3|exact W3|intros ? Y; discriminate Y|exact PL].
Qed.
Lemma asleep_poll l s : lively s -> nst (poll l s) = NCreated -> asleep (poll l s).
Proof.
  intro L. unfold poll. destruct (fl_shut s).
  - intros _. apply asleep_reset. apply (does_dispatch_self true), L.
  - apply lively_round. eapply lively_steps; [exact L|apply st_io_steps, L|]. apply (kc_fold (fun s i => io_step i s)). intros. apply kc_io_step.
Qed.
Lemma step_lively n ev s s' : lively s -> step n ev s = Some s' -> nst s' = NCreated -> asleep s'.
Proof.
  intros L. assert (G := proj1 L).
  assert (LV : forall u, lively u -> nst u = NCreated -> asleep u) by (intros u [_ U] V; now elim U).
  unfold step, step_ret. destruct ev as [i x|now|a|a|a i|i|to ty b w q|to l q|z| |now feed|l|i|o l]; cbn [option_map fst];
    try (intros [= <-]).
  - apply asleep_init; [|exact G]. intro N. now elim (proj2 L).
  - apply LV. assert (L0 : lively (set_sec now s)).
    { split; [|exact (proj2 L)]. split; [destruct (proj1 G); now constructor|exact (proj2 G)]. }
    assert (E : steps true (set_sec now s) (fst (start now s))) by (apply st_start; [apply G|exact (proj2 L)]).
    eapply lively_steps; [exact L0|exact E|]. unfold start. destruct L as [_ L]. destruct (nst s); [now elim L|kgo..].
  - apply LV. eapply lively_steps; [exact L|apply st_listen, G|apply kc_listen].
  - apply LV. eapply (lively_steps true); [exact L|apply st_connect, G|apply kc_connect].
  - apply LV. destruct (get_endpoint s i) as [e|] eqn:E; [|exact L].
    eapply lively_steps; [exact L|apply st_connect_ep; [apply G|]|apply kc_connect_ep].
    apply (I_tab s (proj1 G)). now apply (get_endpoint_tabled s i).
  - apply LV. eapply (lively_steps true); [exact L|apply st_node_disconnect, G|apply kc_node_disconnect].
  - apply LV. eapply (lively_steps true); [exact L|apply st_send_data, G|apply kc_send_data].
  - apply LV. eapply (lively_steps true); [exact L|apply st_send_custom, G|apply kc_send_custom].
  - apply LV. eapply (lively_steps true); [exact L|apply st_shut|apply kc_shutdown].
  - intros _. now apply asleep_reset.
  - destruct (proc n now feed s) as [s1|] eqn:P; [|discriminate]. intros [= <-]. eapply asleep_proc; eauto.
  - now apply asleep_poll.
  - apply LV. eapply lively_steps; [exact L|apply st_io_step, G|apply kc_io_step].
  - apply LV. eapply (lively_steps true); [exact L| |now apply kc_intro].
    eapply steps_trans; [apply (st_orc true o)|apply st_salts].
Qed.
Theorem reachable_asleep s : reachable s -> nst s = NCreated -> asleep s.
Proof.
  intros (n & evs & R). revert R. assert (W : nst new_node = NCreated -> asleep new_node) by (intros _; apply asleep_new).
  pose proof good_new as G. revert G W. generalize new_node.
  induction evs as [|ev r IH]; intros u G W; cbn [run]; [intros [= <-]; exact W|].
  destruct (step n ev u) as [u1|] eqn:S; [|discriminate]. apply IH; [eapply good_step; eauto|]. clear IH.
  assert (C : nst u = NCreated \/ nst u <> NCreated) by (destruct (nst u); auto; right; discriminate).
  destruct C as [C|C]; [|apply (step_lively n ev u); [now split|exact S]]. intro N1. destruct (inits ev) eqn:E.
  - destruct ev as [i x| | | | | | | | | | | | |]; try discriminate. cbn [step step_ret option_map] in S. injection S as <-.
    now apply asleep_init.
  - destruct (step_asleep n ev u G (W C) E) as (u2 & S2 & Z & _). unfold step in S. rewrite S2 in S. cbn in S. injection S as <-. exact Z.
Qed.
