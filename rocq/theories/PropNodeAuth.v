(** Access tokens: C30, C32. *)
From Verif Require Import Base Subnet Route RouteProof Address NodeTypes NodeConn NodeCore NodeMsg Node
  NodeFrame NodeReset NodeInv NodeKeep NodeSteps NodeReach NodeSpec NodeLog NodeNotice NodeRoute NodeTrace NodeHandle NodeAuth NodeExample PropNodeMsg.
Local Open Scope N_scope.
Ltac Zify.zify_post_hook ::= idtac.

(** The specification: a key is valid if it is the keyed hash of a configured token
    under the salt it carries. *)
Definition valid_key (tokens : list bytes) (mac : bytes -> N -> N * N) (k : key) : Prop :=
  exists t, In t tokens /\ mac t (y_salt k) = (y_h1 k, y_h2 k).
(** Registration requests an event brings in. *)
Definition brings (i : item) (r : reg) : Prop := exists n m, i = RMsg n m /\ m_body m = BReg false r.
Definition hears (ev : event) (r : reg) : Prop :=
  match ev with
  | EProc _ feed => exists c l i, In (c, l) feed /\ In i l /\ brings i r
  | EPoll l => exists c i, In (IRecv c i) l /\ brings i r
  | EIo (IRecv _ i) => brings i r
  | _ => False
  end.

Lemma keys_ok_valid x ks : x_tokens x <> [] -> (keys_ok x ks = true <-> exists k, In k ks /\ valid_key (x_tokens x) (x_mac x) k).
Proof.
  intro T. unfold keys_ok, check_hash. destruct (x_tokens x) as [|t ts]; [contradiction|]. rewrite existsb_exists.
  assert (V : forall k, existsb (fun t0 => let (a, b) := x_mac x t0 (y_salt k) in (y_h1 k =? a) && (y_h2 k =? b)) (t :: ts) = true <->
    valid_key (t :: ts) (x_mac x) k).
  { intro k. rewrite existsb_exists. unfold valid_key. split; intros (u & U & E); exists u; (split; [exact U|]).
    - destruct (x_mac x u (y_salt k)) as [a b]. apply andb_prop in E. rewrite !N.eqb_eq in E. now destruct E as [-> ->].
    - rewrite E. now rewrite !N.eqb_refl. }
  split; intros (k & K & E); exists k; (split; [exact K|]); now apply V.
Qed.
Lemma keys_not_ok x ks : x_tokens x <> [] -> (forall k, In k ks -> ~ valid_key (x_tokens x) (x_mac x) k) -> keys_ok x ks = false.
Proof.
  intros T V. destruct (keys_ok x ks) eqn:E; [|reflexivity]. apply (keys_ok_valid x ks T) in E. destruct E as (k & K & W). now elim (V k K).
Qed.

(** ** C30 *)
(** As long as no registration request with a valid key arrives, no peer is ever
    reported as added, and the node has no parent and routes nowhere. *)
Theorem C30_no_admission_without_token n i y evs s : x_tokens y <> [] ->
  (forall j y', In (EInit j y') evs -> x_tokens y' = x_tokens y /\ x_mac y' = x_mac y) ->
  (forall ev r k, In ev evs -> hears ev r -> In k (r_keys r) -> ~ valid_key (x_tokens y) (x_mac y) k) ->
  run n (EInit i y :: evs) new_node = Some s ->
  (forall e, ~ In (TAdded e) (log s)) /\ parent s = None /\ routes s = [].
Proof.
  intros T S H R.
  assert (B : forall j, (forall r k, brings j r -> In k (r_keys r) -> ~ valid_key (x_tokens y) (x_mac y) k) -> strange y j).
  { intros j J. unfold strange. destruct j as [|?|m0 m]; trivial. destruct (m_body m) as [|[]| |[] r| | |] eqn:BD; trivial.
    apply keys_not_ok; trivial. intros k K. apply (J r k); trivial. now exists m0, m. }
  assert (F : Forall (strange_ev y) evs).
  { apply Forall_forall. intros ev X. specialize (S) as S'. destruct ev; cbn [strange_ev]; trivial.
    - eapply S'; eauto.
    - apply Forall_forall. intros [c l] P. cbn [snd]. apply Forall_forall. intros j J. apply B. intros r k BR. apply (H _ r k X). cbn [hears]. eauto 6.
    - apply Forall_forall. intros j J. destruct j; cbn [strange_io]; trivial. apply B. intros r k BR. apply (H _ r k X). cbn [hears]. eauto.
    - destruct i0; cbn [strange_io]; trivial. apply B. intros r k BR. apply (H _ r k X). exact BR. }
  pose proof (never_added n i y evs s F R) as A. split; [exact A|]. apply unnotified_absent; [now exists n, (EInit i y :: evs)|exact A].
Qed.
Example C30_case : exists n i y evs s r, x_tokens y <> [] /\ run n (EInit i y :: evs) new_node = Some s /\
  (exists ev, In ev evs /\ hears ev r) /\ r_keys r <> [] /\ (forall k, In k (r_keys r) -> ~ valid_key (x_tokens y) (x_mac y) k).
Proof.
  set (r := {| r_id := 65540; r_pid := 9; r_host := [2]; r_chans := [adr]; r_keys := [{| y_salt := 5; y_h1 := 9; y_h2 := 5 |}]; r_nets := [] |}).
  set (evs := [EStart 100; EListen adr; EIo (IAccepted adr2); EIo (IRecv 2 (RMsg 10 (msg0 65540 (BReg false r))))]).
  exists fuel0, 65536, (set_tokens [[1;2;3]] cfg0), evs.
  destruct (run fuel0 (EInit 65536 (set_tokens [[1;2;3]] cfg0) :: evs) new_node) as [s|] eqn:E; [|exfalso; revert E; vm_compute; discriminate].
  exists s, r. split; [discriminate|]. split; [reflexivity|]. split; [|split; [discriminate|]].
  - eexists. split; [do 3 right; left; reflexivity|]. do 2 eexists. split; reflexivity.
  - intros k [<-|[]] (t & [<-|[]] & X). cbn in X. discriminate.
Qed.

(** One refused message: no connection becomes bound, no peer appears, the node is not
    marked as registered at its parent. *)
Record meek (s s' : node) : Prop := {
  K_bind : forall c e, k_bind (cs s' c) = Some e -> k_bind (cs s c) = Some e;
  K_parent : forall p, parent s' = Some p -> parent s = Some p;
  K_routes : forall p, In p (routes s') -> In p (routes s);
  K_preg : fl_preg s' = fl_preg s }.
Lemma meek_refl s : meek s s. Proof. constructor; auto. Qed.
Lemma meek_trans s1 s2 s3 : meek s1 s2 -> meek s2 s3 -> meek s1 s3.
Proof. intros [] []. constructor; auto. congruence. Qed.
Lemma meek_cs s s' : (forall c e, k_bind (cs s' c) = Some e -> k_bind (cs s c) = Some e) ->
  parent s' = parent s -> routes s' = routes s -> fl_preg s' = fl_preg s -> meek s s'.
Proof. intros A B C D. constructor; trivial; [now rewrite B|now rewrite C]. Qed.
Lemma meek_same s s' : cs s' = cs s -> parent s' = parent s -> routes s' = routes s -> fl_preg s' = fl_preg s -> meek s s'.
Proof. intros A. apply meek_cs. now rewrite A. Qed.
Lemma meek_on_c c f s : (forall k, k_bind (f k) = k_bind k \/ k_bind (f k) = None) -> meek s (on_c c f s).
Proof.
  intro F. apply meek_cs; trivial. intros x e. rewrite cs_on_c. destruct (N.eqb_spec x c) as [->|]; trivial.
  destruct (F (cs s c)) as [->| ->]; [trivial|discriminate].
Qed.
Lemma meek_close c s : meek s (conn_close c s).
Proof. apply meek_cs; try fr1. intros x e. rewrite cs_conn_close. destruct (N.eqb_spec x c) as [->|]; trivial. now rewrite bind_closed. Qed.
Lemma meek_fin c s : meek s (conn_fin c s).
Proof. apply meek_cs; try fr1. intros x e. rewrite cs_conn_fin. now destruct (N.eqb_spec x c) as [->|]. Qed.
Lemma meek_ereset b g e s : meek s (ep_reset b g e s).
Proof.
  apply meek_cs; try fr1. intros x e'. rewrite cs_ep_reset. destruct (memb _ _); [discriminate|].
  destruct (opt_eqb _ _); trivial. destruct (opt_eqb _ _); discriminate.
Qed.
Lemma meek_creset c s : meek s (conn_reset c s).
Proof.
  unfold conn_reset. cbv zeta. eapply meek_trans; [apply (meek_close c s)|]. set (s1 := conn_close c s). clearbody s1.
  eapply meek_trans; [|apply meek_fin]. destruct (k_bind (cs s1 c)) as [e|]; [|apply meek_refl].
  destruct (opt_eqb _ _); [apply meek_ereset|]. destruct (memb _ _); [|apply meek_refl].
  assert (M : meek s1 (on_e e (fun d => set_d_data (rm c (d_data d)) d) (on_c c (set_k_bind None) s1))).
  { eapply meek_trans; [apply (meek_on_c c (set_k_bind None)); now right|]. now apply meek_same. }
  destruct (d_data _); [|exact M]. eapply meek_trans; [exact M|apply meek_ereset].
Qed.
Lemma meek_epdrop e s : meek s (ep_drop e s). Proof. unfold ep_drop. destruct (ep_held _ _); [apply meek_refl|apply meek_ereset]. Qed.
Lemma meek_emit t s : meek s (emit t s). Proof. now apply meek_same. Qed.
Lemma meek_fatal z s : meek s (fatal_shutdown z s). Proof. apply meek_same; fr1. Qed.
Lemma meek_rmep i ex s : meek s (fst (remove_endpoint i ex s)).
Proof.
  unfold remove_endpoint. destruct (is_parent s i).
  - destruct (parent s) as [p|] eqn:P; [|apply meek_refl]. destruct (match ex with Some _ => _ | None => _ end); [apply meek_refl|].
    cbv zeta. cbn [fst]. set (s1 := emit _ _). assert (M : meek s s1) by (constructor; trivial; cbn; discriminate).
    destruct (fl_act s1); [exact M|]. eapply meek_trans; [exact M|apply meek_fatal].
  - destruct (_ =? _); [apply meek_refl|]. pose proof (remove_child_sub (routes s) i ex) as S.
    destruct (remove_child (routes s) i ex) as [[] t]; [|apply meek_refl]. destruct (child_at _ _) as [e|]; [|apply meek_refl].
    cbn [fst snd] in *. constructor; trivial. intros p X. now apply (sub_in _ _ _ S).
Qed.
Lemma meek_ep_fault e s : meek s (fst (ep_fault e s)).
Proof.
  unfold ep_fault. cbv zeta. set (s1 := emit _ (on_e e _ s)). assert (M : meek s s1) by (constructor; trivial; now exists (TFault e (e_id (d_ep (es s e))) (x_tol (cf s)))).
  destruct (_ <? _); [|exact M]. eapply meek_trans; [exact M|apply meek_rmep].
Qed.
Lemma meek_fault_of c s : meek s (fault_of c s).
Proof.
  unfold fault_of. cbv zeta. set (s1 := match k_bind (cs s c) with Some _ => _ | None => s end). assert (M : meek s s1).
  { subst s1. destruct (k_bind (cs s c)) as [e|]; [|apply meek_refl]. pose proof (meek_ep_fault e s) as M.
    destruct (ep_fault e s) as [s1 g]. cbn [fst] in M. destruct g; [|exact M]. eapply meek_trans; [exact M|apply meek_epdrop]. }
  eapply meek_trans; [exact M|]. clearbody s1. unfold conn_fault. cbv zeta.
  assert (M1 : meek s1 (on_c c (fun k => set_k_fault (k_fault k + 1) k) s1)) by (apply meek_on_c; now left).
  destruct (_ <? _); [|exact M1]. eapply meek_trans; [exact M1|apply meek_creset].
Qed.
Lemma meek_after c p : meek (fst p) (after_recv c p).
Proof.
  destruct p as [s r]. unfold after_recv. cbn [fst]. destruct (_ <? _)%Z; [apply meek_fault_of|]. cbv zeta.
  eapply meek_trans; [|apply meek_on_c; now left]. destruct (k_bind _); [|apply meek_refl]. now apply meek_same.
Qed.
Lemma meek_send_on c m s : meek s (fst (send_on c m s)).
Proof. destruct (level_send_on c m s) as [_ _ _ P R _ B _ _]. apply meek_cs; trivial; [intros x e; now rewrite B|fr1]. Qed.
Lemma meek_send_reg b c z q s : meek s (fst (send_reg b c z q s)).
Proof.
  unfold send_reg. destruct (self s); [|apply meek_refl]. destruct (gen_keys_eq (x_tokens (cf s)) s) as [v E].
  destruct (gen_keys _ s) as [s1 ks]. cbn [fst] in E. subst s1. eapply meek_trans; [|apply meek_send_on]. now apply meek_same.
Qed.
Theorem C30_refused_message_changes_nothing s c n m rsp r : reachable s -> x_tokens (cf s) <> [] -> m_body m = BReg rsp r ->
  (forall k, In k (r_keys r) -> ~ valid_key (x_tokens (cf s)) (x_mac (cf s)) k) ->
  let s' := recv_item c (RMsg n m) s in
  (forall c' e, k_bind (cs s' c') = Some e -> k_bind (cs s c') = Some e) /\
  (forall p, parent s' = Some p -> parent s = Some p) /\ (forall p, In p (routes s') -> In p (routes s)) /\
  fl_preg s' = fl_preg s.
Proof.
  intros R T B V. cbv zeta. apply keys_not_ok in V; trivial.
  assert (M : meek s (recv_item c (RMsg n m) s)).
  { cbn [recv_item]. cbv zeta. rewrite on_recv_eq, stamp_pull. set (s1 := on_c c _ s).
    assert (M1 : meek s s1) by (apply meek_on_c; now left). eapply meek_trans; [exact M1|].
    assert (V1 : keys_ok (cf s1) (r_keys r) = false) by exact V. clearbody s1. eapply meek_trans; [|apply meek_after].
    unfold dispatch_msg. rewrite stamp_body, B. set (h := m_head _). destruct rsp.
    - unfold reg_rsp. cbv zeta. eapply meek_trans; [apply (meek_emit (TReg c (h_ret h)))|]. set (s2 := emit _ s1).
      assert (V2 : keys_ok (cf s2) (r_keys r) = false) by exact V1. clearbody s2. rewrite V2. cbn [negb orb fst].
      eapply meek_trans; [|apply meek_creset]. set (s3 := match k_bind (cs s2 c) with Some _ => _ | None => s2 end).
      assert (M3 : meek s2 s3) by (subst s3; destruct (k_bind (cs s2 c)); [apply meek_same; fr1|apply meek_refl]).
      eapply meek_trans; [exact M3|]. destruct (_ && _); [apply meek_fatal|apply meek_refl].
    - assert (D : forall z, meek s1 (fst (reg_deny c z (h_seq h) s1))).
      { intro z. unfold reg_deny. pose proof (meek_send_reg true c z (h_seq h) s1) as M. destruct (send_reg _ _ _ _ _) as [s2 r2]. cbn [fst] in *.
        destruct (_ <? _)%Z; [|exact M]. eapply meek_trans; [exact M|apply meek_creset]. }
      unfold reg_req. destruct (_ <? _)%Z; [apply D|]. rewrite V1. apply D. }
  destruct M. now repeat split.
Qed.
Example C30_case_message : exists s m r, reachable s /\ x_tokens (cf s) <> [] /\ m_body m = BReg false r /\
  (forall k, In k (r_keys r) -> ~ valid_key (x_tokens (cf s)) (x_mac (cf s)) k) /\ k_kind (cs s 2) = KSock /\ k_bind (cs s 2) = None /\
  fl_preg s = false.
Proof.
  observe (fun s => (x_tokens (cf s), k_kind (cs s 2), k_bind (cs s 2), fl_preg s)) [EInit 65536 (set_tokens [[1;2;3]] cfg0); EStart 100; EListen adr; EIo (IAccepted adr2)].
  injection E as E1 E2 E3 E4. exists s, (msg0 65540 (BReg false (reg0 65540 []))), (reg0 65540 []). rewrite E1, E2, E3, E4.
  repeat split; trivial; try discriminate. intros k [].
Qed.
(** With a valid key the peer is admitted (the hypothesis of refusal matters). *)
Example C30_case_admitted : exists s x r, reachable s /\ x_tokens (cf s) <> [] /\ In (r, x) (routes s) /\ e_id x = 65540.
Proof.
  observe (fun s => (x_tokens (cf s), routes s)) (boot1 65540). injection E as E1 E2. exists s. do 2 eexists. rewrite E1, E2.
  split; [exact R|]. split; [discriminate|]. split; [now left|reflexivity].
Qed.

(** What a node presents is accepted by every node that shares one token with it and
    uses the same keyed hash. *)
Lemma gen_keys_spec ts : forall s, (forall t, In t ts -> exists k, In k (snd (gen_keys ts s)) /\ x_mac (cf s) t (y_salt k) = (y_h1 k, y_h2 k)) /\
  (ts = [] -> snd (gen_keys ts s) = []).
Proof.
  induction ts as [|t ts IH]; intro s; [split; [intros t []|reflexivity]|]. split; [|discriminate].
  intros u U. cbn [gen_keys].
  assert (CF : cf (fst (take_salt s)) = cf s) by (unfold take_salt; destruct (salts s); reflexivity).
  destruct (take_salt s) as [s1 salt]. cbn [fst] in CF. destruct (x_mac (cf s1) t salt) as [a b] eqn:M.
  destruct (IH s1) as [H _]. destruct (gen_keys ts s1) as [s2 ks]. cbn [snd] in *. destruct U as [->|U].
  - eexists. split; [now left|]. cbn [y_salt y_h1 y_h2]. now rewrite <- CF.
  - destruct (H u U) as (k & K & E). exists k. split; [now right|]. now rewrite <- CF.
Qed.
Definition presented (t : tr) : option (list key) :=
  match t with TSend _ m _ _ => match m_body m with BReg _ r => Some (r_keys r) | _ => None end | _ => None end.
Theorem C30_own_keys_accepted s rsp c z q ks y : x_mac y = x_mac (cf s) ->
  (x_tokens (cf s) = [] /\ x_tokens y = []) \/ (exists t, In t (x_tokens (cf s)) /\ In t (x_tokens y)) ->
  (exists t, gained s (fst (send_reg rsp c z q s)) t /\ presented t = Some ks) -> keys_ok y ks = true.
Proof.
  intros M H (t & G & P).
  assert (A : adds (fun t => forall ks, presented t = Some ks -> keys_ok y ks = true) s (fst (send_reg rsp c z q s))).
  { unfold send_reg. destruct (self s); [|apply adds_refl].
    destruct (gen_keys_spec (x_tokens (cf s)) s) as [K1 K2]. destruct (gen_keys_eq (x_tokens (cf s)) s) as [v E].
    destruct (gen_keys (x_tokens (cf s)) s) as [s1 k1]. cbn [fst snd] in *. subst s1.
    eapply adds_trans; [apply (adds_same _ s (set_salts v s)); reflexivity|]. apply adds_send_on. intros r k0 [= <-].
    destruct H as [[H1 H2]|(u & U1 & U2)].
    - rewrite (K2 H1). unfold keys_ok. now rewrite H2.
    - assert (T : x_tokens y <> []) by (intro X; now rewrite X in U2). apply keys_ok_valid; trivial.
      destruct (K1 u U1) as (k & K & E). exists k. split; [exact K|]. exists u. split; [exact U2|]. now rewrite M. }
  exact (adds_gained _ _ _ _ A G ks P).
Qed.
(** The peer of [boot1] would have been admitted with what the node itself presents. *)
Example C30_case_own : exists s t ks, reachable s /\ x_tokens (cf s) = [[1;2;3]] /\
  gained s (fst (send_reg false 2 0 1 s)) t /\ presented t = Some ks /\ ks <> [].
Proof.
  observe (fun s => (x_tokens (cf s), log s, log (fst (send_reg false 2 0 1 s)))) (boot1 65540).
  injection E as E1 E2 E3. exists s. do 2 eexists. split; [exact R|]. split; [exact E1|]. split; [gains E2 E3|]. split; [reflexivity|discriminate].
Qed.

(** ** C32: custom commands *)
(** A command from a connection reaches the callback only as it was sent, and with a
    valid key if tokens are configured. *)
Theorem C32_command_needs_token s c i c' from args : reachable s -> gained s (recv_item c i s) (TCmd (Some c') from args) ->
  exists n m q, i = RMsg n m /\ m_body m = BCmd false q /\ c' = c /\ from = q_from q /\ args = q_args q /\
    (x_tokens (cf s) <> [] -> exists k, In k (q_keys q) /\ valid_key (x_tokens (cf s)) (x_mac (cf s)) k).
Proof.
  intros R G. destruct i as [z|n|n m].
  - assert (Q : quiet s (recv_item c (RErr z) s)) by apply qt_fault_of. destruct (adds_gained _ _ _ _ Q G).
  - destruct (adds_gained (fun _ => False) s (recv_item c (RBad n) s) _ (adds_same _ _ _ eq_refl) G).
  - destruct (is_data m) eqn:D.
    + unfold is_data in D. destruct (m_body m) as [rsp w|?|?|?|?|?|] eqn:BD; try discriminate.
      destruct (adds_gained _ _ _ _ (recv_effect c n m rsp w s (reachable_Inv s R) BD) G).
    + pose proof (adds_gained _ _ _ _ (recv_plain c n m s D) G) as (q & B & -> & -> & -> & K).
      exists n, m, q. do 5 (split; [trivial|]). intro T. now apply keys_ok_valid.
Qed.
(** Everything sent while a command is handled. *)
Definition sends (s s' : node) (l : list tr) : Prop :=
  exists l', log s' = l' ++ log s /\ filter (fun t => match t with TSend _ _ _ _ => true | _ => false end) l' = l.
Lemma sends_trans s1 s2 s3 l k : sends s1 s2 l -> sends s2 s3 k -> sends s1 s3 (k ++ l).
Proof. intros (x & X & <-) (y & Y & <-). exists (y ++ x). split; [now rewrite Y, X, app_assoc|apply filter_app]. Qed.
Lemma sends_none s s' : adds (fun t => match t with TSend _ _ _ _ => False | _ => True end) s s' -> sends s s' [].
Proof.
  intros (l & L & F). exists l. split; [exact L|]. clear L. induction F as [|t l T _ IH]; [reflexivity|]. cbn [filter]. destruct t; trivial. contradiction.
Qed.
Definition hush (t : tr) : Prop := match t with TSend _ _ _ _ => False | _ => True end.
Lemma hush_soft s s' : soft s s' -> adds hush s s'.
Proof. intros [(l & L & F) _]. exists l. split; [exact L|]. eapply Forall_impl; [|exact F]. intros []; cbn; trivial; discriminate. Qed.
Lemma hush_shut z s : adds hush s (fatal_shutdown z s).
Proof. unfold fatal_shutdown, shutdown. destruct (fl_shut s); [apply adds_refl|]. cbv zeta. destruct (fl_act _); [now apply (adds_emit hush (TDown z) (set_fl_shut true s))|now apply adds_same]. Qed.
Lemma hush_rmep i ex s : adds hush s (fst (remove_endpoint i ex s)).
Proof.
  unfold remove_endpoint. destruct (is_parent s i).
  - destruct (parent s) as [p|]; [|apply adds_refl]. destruct (match ex with Some _ => _ | None => _ end); [apply adds_refl|].
    cbv zeta. cbn [fst]. set (s1 := emit _ _). assert (M : adds hush s s1) by (exists [TRemoved (e_ref p)]; split; [reflexivity|repeat constructor]).
    destruct (fl_act s1); [exact M|]. eapply adds_trans; [exact M|apply hush_shut].
  - destruct (_ =? _); [apply adds_refl|]. destruct (remove_child (routes s) i ex) as [[] t]; [|apply adds_refl]. destruct (child_at _ _) as [e|]; [|apply adds_refl].
    cbn [fst]. exists [TRemoved (e_ref e)]. split; [reflexivity|repeat constructor].
Qed.
Lemma hush_fault_of c s : adds hush s (fault_of c s).
Proof.
  unfold fault_of. cbv zeta. set (s1 := match k_bind (cs s c) with Some _ => _ | None => s end). assert (M : adds hush s s1).
  { subst s1. destruct (k_bind (cs s c)) as [e|]; [|apply adds_refl].
    assert (M : adds hush s (fst (ep_fault e s))).
    { unfold ep_fault. cbv zeta. set (s1 := emit _ _). assert (M : adds hush s s1) by (exists [TFault e (e_id (d_ep (es s e))) (x_tol (cf s))]; split; [reflexivity|repeat constructor]).
      destruct (_ <? _); [|exact M]. eapply adds_trans; [exact M|apply hush_rmep]. }
    destruct (ep_fault e s) as [s1 g]. cbn [fst] in M. destruct g; [|exact M]. eapply adds_trans; [exact M|].
    unfold ep_drop. destruct (ep_held _ _); [apply adds_refl|apply hush_soft, soft_ep_reset]. }
  eapply adds_trans; [exact M|]. clearbody s1. unfold conn_fault. cbv zeta.
  destruct (_ <? _); [|now apply adds_same]. eapply adds_trans; [|apply hush_soft, soft_conn_reset]. now apply adds_same.
Qed.
Lemma hush_after c p : adds hush (fst p) (after_recv c p).
Proof.
  destruct p as [s r]. unfold after_recv. cbn [fst]. destruct (_ <? _)%Z; [apply hush_fault_of|]. cbv zeta.
  destruct (k_bind _) as [e|]; [|now apply adds_same]. exists [TGood e]. split; [reflexivity|repeat constructor].
Qed.
(** A command on an established socket is answered exactly once, on that socket, with
    the number and the type of the request, and nothing else is sent.  The answer has
    to fit into a message. *)
Theorem C32_command_answered_once s c n m q : reachable s -> m_body m = BCmd false q ->
  k_kind (cs s c) = KSock -> k_fd (cs s c) = true -> k_st (cs s c) = Connected \/ k_st (cs s c) = Handshaking ->
  (forall m' q', m_body m' = BCmd true q' -> x_size (cf s) m' <= x_msg (cf s) + 1024) ->
  exists code data keys k z,
    sends s (recv_item c (RMsg n m) s)
      [TSend c {| m_head := {| h_ver := ver; h_type := h_type (m_head m); h_ret := code; h_seq := h_seq (m_head m); h_src := my_id s |};
                  m_body := BCmd true {| q_from := my_id s; q_keys := keys; q_args := data |} |} k z].
Proof.
  intros R B K F ST SZ. cbn [recv_item]. cbv zeta. rewrite on_recv_eq, stamp_pull. set (s1 := on_c c _ s).
  assert (HD : h_type (m_head (stamp s c m)) = h_type (m_head m) /\ h_seq (m_head (stamp s c m)) = h_seq (m_head m)).
  { unfold stamp. destruct (k_bind _); [|now split]. cbv zeta. now destruct (_ =? 0). }
  destruct HD as [HT HS].
  assert (X1 : k_kind (cs s1 c) = KSock /\ k_fd (cs s1 c) = true /\ (k_st (cs s1 c) = Connected \/ k_st (cs s1 c) = Handshaking) /\
    cf s1 = cf s /\ my_id s1 = my_id s /\ log s1 = log s).
  { subst s1. rewrite cs_on_c, N.eqb_refl. now repeat split. }
  destruct X1 as (K1 & F1 & ST1 & CF1 & ID1 & L1). clearbody s1.
  assert (AN : forall d code s2, log s2 = log s1 \/ (exists t, log s2 = t :: log s1 /\ hush t) -> cs s2 = cs s1 -> cf s2 = cf s1 -> my_id s2 = my_id s1 ->
    exists keys k z, sends s (fst (send_cmd_rsp (Some c) d (h_type (m_head m)) code (h_seq (m_head m)) (q_from q) s2))
      [TSend c {| m_head := {| h_ver := ver; h_type := h_type (m_head m); h_ret := code; h_seq := h_seq (m_head m); h_src := my_id s |};
                  m_body := BCmd true {| q_from := my_id s; q_keys := keys; q_args := d |} |} k z]).
  { intros d code s2 L2 C2 CF2 ID2. unfold send_cmd_rsp. destruct (gen_keys_eq (x_tokens (cf s2)) s2) as [v E].
    destruct (gen_keys (x_tokens (cf s2)) s2) as [s3 ks]. cbn [fst] in E. subst s3.
    change (my_id (set_salts v s2)) with (my_id s2). rewrite ID2, ID1. set (m' := {| m_head := _; m_body := _ |}).
    assert (P : exists k z, log (fst (send_on c m' (set_salts v s2))) = TSend c m' k z :: log s2).
    { unfold send_on. change (cf (set_salts v s2)) with (cf s2). rewrite CF2, CF1.
      assert (Z : (x_msg (cf s) + 1024 <? x_size (cf s) m') = false) by (apply N.ltb_ge; apply (SZ m' _ eq_refl)). rewrite Z.
      unfold push. cbv zeta. rewrite !cs_on_c, N.eqb_refl. cbn [set_k_start k_st k_kind]. change (cs (set_salts v s2)) with (cs s2). rewrite C2, K1.
      destruct ST1 as [-> | ->]; unfold take_orc; destruct (orc _) as [|z o]; cbn [fst snd]; do 2 eexists; destruct (_ <? 0)%Z; reflexivity. }
    destruct P as (k & z & P). exists ks, k, z. destruct L2 as [L2|(t & L2 & T)]; rewrite L2, L1 in P.
    - exists [TSend c m' k z]. split; [exact P|reflexivity].
    - exists [TSend c m' k z; t]. split; [exact P|]. cbn [filter]. destruct t; trivial. contradiction. }
  assert (G : exists code data keys k z, sends s (fst (dispatch_msg c (stamp s c m) s1))
      [TSend c {| m_head := {| h_ver := ver; h_type := h_type (m_head m); h_ret := code; h_seq := h_seq (m_head m); h_src := my_id s |};
                  m_body := BCmd true {| q_from := my_id s; q_keys := keys; q_args := data |} |} k z]).
  { unfold dispatch_msg. rewrite stamp_body, B. cbv zeta. unfold cmd_req. rewrite HT, HS.
    destruct (_ <? _)%Z.
    - destruct (AN deny_version E_VERSION s1) as (keys & k & z & S); auto. eauto 8.
    - destruct (negb _).
      + destruct (AN deny_token E_ACCESS_DENY s1) as (keys & k & z & S); auto. eauto 8.
      + cbv zeta. set (s2 := emit _ s1).
        assert (RU : is_running s2 c && k_fd (cs s2 c) || (my_id s2 =? q_from q) = true).
        { unfold is_running. change (cs s2) with (cs s1). rewrite F1. destruct ST1 as [-> | ->]; reflexivity. }
        rewrite RU. destruct (AN (x_reply (cf s2) (q_args q)) 0%Z s2) as (keys & k & z & S); trivial; [right; eexists; split; [reflexivity|exact Logic.I]|].
        eauto 8. }
  destruct G as (code & data & keys & k & z & G). exists code, data, keys, k, z. destruct (dispatch_msg c (stamp s c m) s1) as [s2 ret]. cbn [fst] in G.
  pose proof (hush_after c (s2, ret)) as A. apply sends_none in A. exact (sends_trans _ _ _ _ _ G A).
Qed.
Example C32_case : exists s q, reachable s /\ k_kind (cs s 2) = KSock /\ k_fd (cs s 2) = true /\ k_st (cs s 2) = Connected /\ x_tokens (cf s) <> [] /\
  gained s (recv_item 2 (RMsg 30 (msg0 65540 (BCmd false q))) s) (TCmd (Some 2) 65540 [[7]]) /\
  (forall m' q', m_body m' = BCmd true q' -> x_size (cf s) m' <= x_msg (cf s) + 1024).
Proof.
  set (q := {| q_from := 65540; q_keys := [{| y_salt := 5; y_h1 := 8; y_h2 := 5 |}]; q_args := [[7]] |}).
  destruct (run fuel0 (boot1 65540) new_node) as [s|] eqn:RU; [|exfalso; revert RU; vm_compute; discriminate].
  assert (CF : cf s = set_tokens [[1;2;3]] cfg0).
  { assert (X : option_map cf (run fuel0 (boot1 65540) new_node) = Some (set_tokens [[1;2;3]] cfg0)) by (vm_compute; reflexivity). rewrite RU in X. now injection X. }
  assert (X : option_map (fun s => (k_kind (cs s 2), k_fd (cs s 2), k_st (cs s 2), log s, log (recv_item 2 (RMsg 30 (msg0 65540 (BCmd false q))) s))) (run fuel0 (boot1 65540) new_node) <> None)
    by (rewrite RU; discriminate).
  destruct (option_map _ (run fuel0 (boot1 65540) new_node)) as [v|] eqn:O; [clear X|now elim X].
  pose proof O as O'. rewrite RU in O'. cbn [option_map] in O'. vm_compute in O. injection O as <-. injection O' as E1 E2 E3 E4 E5.
  exists s, q. split; [now exists fuel0, (boot1 65540)|]. rewrite E1, E2, E3, CF. do 3 (split; [reflexivity|]). split; [discriminate|]. split; [gains E4 E5|].
  intros m' q' _. change (40 <= 262144 + 1024). discriminate.
Qed.
(** Answers to commands are not authorised at all: anybody who connects can make the
    node report one. *)
Theorem C32_answer_needs_token_refuted : exists s m, reachable s /\ x_tokens (cf s) <> [] /\ k_kind (cs s 4) = KSock /\ k_bind (cs s 4) = None /\
  m_body m = BCmd true {| q_from := 65540; q_keys := []; q_args := [[7]] |} /\
  gained s (recv_item 4 (RMsg 30 m) s) (TCmdRsp (Some 4) 65540 [[7]] 5).
Proof.
  observe (fun s => (x_tokens (cf s), k_kind (cs s 4), k_bind (cs s 4), log s, log (recv_item 4 (RMsg 30 (msg0 1 (BCmd true {| q_from := 65540; q_keys := []; q_args := [[7]] |}))) s)))
    (boot1 65540 ++ [EIo (IAccepted adr2)]).
  injection E as E1 E2 E3 E4 E5. exists s. eexists. split; [exact R|]. rewrite E1, E2, E3. split; [discriminate|].
  split; [reflexivity|]. split; [reflexivity|]. split; [|gains E4 E5]. reflexivity.
Qed.

Print Assumptions C30_no_admission_without_token.
Print Assumptions C30_refused_message_changes_nothing.
Print Assumptions C30_own_keys_accepted.
Print Assumptions C32_command_needs_token.
Print Assumptions C32_command_answered_once.
Print Assumptions C32_answer_needs_token_refuted.
