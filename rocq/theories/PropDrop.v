(** Disconnecting from a node: C75. *)
From Verif Require Import Base Subnet SubnetSpec Route RouteProof Address NodeTypes NodeConn NodeCore NodeMsg Node
  NodeFrame NodeReset NodeInv NodeKeep NodeSteps NodeReach NodeSpec NodeLog NodeNotice NodeRoute NodeTime NodeDead
  NodeExample LifeSpec NodeLife PropConnLife PropNodeLife PropParent.
Local Open Scope N_scope.
Ltac Zify.zify_post_hook ::= idtac.

(** The nodes a node is linked to: its parent and the entries of its routing table. *)
Definition neighbour (s : node) (x : ep) : Prop := parent s = Some x \/ exists r, In (r, x) (routes s).

(** ** What is recorded while connections are closed *)
Definition shutting (P : N -> Prop) (s s' : node) : Prop :=
  exists l, log s' = l ++ log s /\ forall t, In t l -> exists c, P c /\ (t = TClose c \/ t = TInvalid c).
Lemma sh_same P s s' : log s' = log s -> shutting P s s'.
Proof. intro E. exists []. split; [exact E|intros t []]. Qed.
Lemma sh_trans P s1 s2 s3 : shutting P s1 s2 -> shutting P s2 s3 -> shutting P s1 s3.
Proof.
  intros (l & L & A) (m & M & B). exists (m ++ l). split; [now rewrite M, L, app_assoc|].
  intros t T. apply in_app_iff in T. destruct T; auto.
Qed.
Lemma sh_rm_timer (P : N -> Prop) c s : P c -> shutting P s (rm_timer c s).
Proof.
  intro H. unfold rm_timer. destruct (in_timer s c); [|now apply sh_same]. cbv zeta. destruct (is_connected s c); [now apply sh_same|].
  exists [TInvalid c]. split; [reflexivity|]. intros t [<-|[]]. eauto.
Qed.
Lemma sh_set_status (P : N -> Prop) c v s : P c -> shutting P s (set_status c v s).
Proof.
  intro H. unfold set_status. destruct (cst_eqb _ _); [now apply sh_same|]. cbv zeta. destruct v; try now apply sh_same.
  eapply sh_trans; [|now apply sh_rm_timer]. now apply sh_same.
Qed.
Lemma sh_on_disconnect P c s : shutting P s (on_disconnect c s).
Proof.
  unfold on_disconnect. destruct (_ && _); [|now apply sh_same]. cbv zeta. destruct (fl_act _) eqn:F; [now apply sh_same|].
  unfold fatal_shutdown, shutdown. destruct (fl_shut _); [now apply sh_same|]. cbv zeta.
  change (fl_act (set_fl_shut true (set_popr (sec s + x_retry (cf s)) (set_nst NLost s)))) with (fl_act (set_popr (sec s + x_retry (cf s)) (set_nst NLost s))).
  rewrite F. now apply sh_same.
Qed.
Lemma sh_disconnect (P : N -> Prop) c s : P c -> shutting P s (disconnect c s).
Proof.
  intro H. unfold disconnect. cbv zeta.
  assert (G : shutting P s (let s := set_status c Disconnecting s in
      let s := match k_kind (cs s c) with KNone => s | _ => emit (TClose c) s end in
      let s := on_disconnect c s in
      let s := if k_proc (cs s c) then on_c c (set_k_proc false) (rm_proc (k_addr (cs s c)) s) else s in
      set_status c Disconnected (on_c c (set_k_kind KNone) s))).
  { cbv zeta. eapply sh_trans; [apply (sh_set_status P c Disconnecting s H)|]. set (s1 := set_status c Disconnecting s). clearbody s1.
    assert (A : shutting P s1 (match k_kind (cs s1 c) with KNone => s1 | _ => emit (TClose c) s1 end)).
    { assert (B : shutting P s1 (emit (TClose c) s1)) by (exists [TClose c]; split; [reflexivity|]; intros t [<-|[]]; eauto).
      destruct (k_kind (cs s1 c)); try exact B. now apply sh_same. }
    eapply sh_trans; [exact A|]. clear A. set (s2 := match k_kind (cs s1 c) with KNone => s1 | _ => emit (TClose c) s1 end). clearbody s2.
    eapply sh_trans; [apply (sh_on_disconnect P c s2)|]. set (s3 := on_disconnect c s2). clearbody s3.
    eapply sh_trans; [|apply sh_set_status; exact H]. destruct (k_proc _); apply sh_same; reflexivity. }
  destruct (k_st (cs s c)); first [exact G | now apply sh_same].
Qed.
Lemma sh_conn_reset_in (P : N -> Prop) c s : P c -> shutting P s (conn_reset_in c s).
Proof.
  intro H. unfold conn_reset_in, conn_fin, conn_close, gc_conn. eapply sh_trans; [apply sh_rm_timer; eassumption|].
  eapply sh_trans; [apply sh_disconnect; eassumption|]. destruct (_ || _); now apply sh_same.
Qed.
Lemma sh_resets (P : N -> Prop) l : forall s, (forall c, In c l -> P c) -> shutting P s (resets_in l s).
Proof.
  induction l as [|c l IH]; intros s H; [now apply sh_same|]. cbn. eapply sh_trans; [apply sh_conn_reset_in, H; now left|].
  apply IH. intros; apply H; now right.
Qed.
Lemma sh_ep_reset gone e s : shutting (holds s e) s (ep_reset None gone e s).
Proof.
  rewrite ep_reset_eq. cbv zeta. cbn [opt_eqb].
  set (s1 := match d_ctrl (es s e) with Some c => _ | None => s end).
  assert (A : shutting (holds s e) s s1 /\ es s1 = es s).
  { unfold s1. destruct (d_ctrl (es s e)) as [c|] eqn:C; [|split; [now apply sh_same|reflexivity]]. split.
    - eapply sh_trans; [|apply sh_conn_reset_in; now left]. now apply sh_same.
    - now rewrite (keeps (f := es)). }
  clearbody s1. destruct A as [A E]. eapply sh_trans; [exact A|]. rewrite E.
  eapply sh_trans; [apply sh_resets with (l := d_data (es s e)); intros c C; now right|].
  set (s2 := resets_in _ s1). clearbody s2. apply sh_same. unfold clear_ping, gc_ep.
  destruct (d_timer _), gone; try reflexivity; destruct (_ || _); reflexivity.
Qed.
(** A second reset of the same endpoint. *)
Lemma sh_again e s : shutting (holds s e) s (ep_drop e (ep_reset None false e s)).
Proof.
  eapply sh_trans; [apply (sh_ep_reset false)|]. set (s1 := ep_reset None false e s).
  assert (E : es s1 e = stripped (es s e)) by (unfold s1; now rewrite es_ep_reset, N.eqb_refl).
  clearbody s1. unfold ep_drop. destruct (ep_held s1 e); [now apply sh_same|].
  destruct (sh_ep_reset true e s1) as (l & L & A). exists l. split; [exact L|]. intros t T. destruct (A t T) as (c & H & _).
  destruct H as [H|H]; rewrite E in H; [discriminate|destruct H].
Qed.

(** ** What disconnecting does *)
(** [dropped id x l s s']: [x] is taken out of service and nothing else changes. *)
Record dropped (id : N) (x : ep) (l : list tr) (s s' : node) : Prop := {
  D_was : neighbour s x;
  D_id : e_id x = id;
  (** The removal is reported once, after that only connections of [x] are closed;
      nothing is sent and no other node is reported. *)
  D_log : log s' = l ++ TRemoved (e_ref x) :: TAsked id :: log s;
  D_quiet : forall t, In t l -> exists c, holds s (e_ref x) c /\ (t = TClose c \/ t = TInvalid c);
  D_closed : forall c, holds s (e_ref x) c -> k_st (cs s c) <> Disconnected -> k_kind (cs s c) <> KNone -> In (TClose c) l;
  D_unbound : forall c, holds s (e_ref x) c -> k_bind (cs s' c) = None /\ k_st (cs s' c) = Disconnected;
  D_offline : offline s' (e_ref x);
  D_conns : forall c, ~ holds s (e_ref x) c -> cs s' c = cs s c;
  D_nodes : forall y, neighbour s' y <-> neighbour s y /\ y <> x;
  D_others : forall e, e <> e_ref x -> es s' e = es s e;
  D_alone : parent s <> Some x -> forall y, neighbour s' y -> e_id y <> id }.

Lemma reachable_disconnect s id : reachable s -> reachable (fst (node_disconnect id s)).
Proof.
  intros (k & evs & R). exists k, (evs ++ [EDisconnect id]). rewrite run_app, R. reflexivity.
Qed.
Lemma closed_in c (l : list tr) : In (TClose c) l \/ ~ In (TClose c) l.
Proof.
  induction l as [|t l IH]; [right; intros []|]. destruct IH as [IH|IH]; [left; now right|].
  assert (D : t = TClose c \/ t <> TClose c).
  { destruct t; try (right; discriminate). destruct (N.eq_dec c0 c) as [->|D]; [now left|right; congruence]. }
  destruct D as [->|D]; [left; now left|right; intros [X|X]; contradiction].
Qed.
Lemma route_apart s p : noticed s -> parent s = Some p -> forall q, In q (routes s) -> e_ref (snd q) <> e_ref p.
Proof.
  intros N P. apply entries_none. pose proof (N_hist s N (e_ref p)) as H.
  destruct H as [[A B]|A B|k [A B] C]; trivial. apply B. eauto.
Qed.
Lemma same_ep s x y : Inv s -> neighbour s x -> neighbour s y -> e_ref x = e_ref y -> x = y.
Proof.
  intros I A B E.
  assert (G : forall z, neighbour s z -> d_ep (es s (e_ref z)) = z).
  { intros z [Z|[r Z]]; [now apply (tab_parent s z I Z)|now apply (tab_route s _ I Z)]. }
  rewrite <- (G x A), <- (G y B). now rewrite E.
Qed.

Lemma serves_id s live x : Sim (routes s) live -> In x live -> servesb (e_id x) (abs x) = true.
Proof. intros SIM X. apply good_ep_serves. pose proof (sim_ep _ _ SIM) as F. rewrite Forall_forall in F. auto. Qed.
(** A child with the id is found by the lookup. *)
Lemma find_id s live x : Sim (routes s) live -> In x live -> find_route (routes s) (e_id x) = Some x /\ child_at (routes s) (e_id x) = Some x.
Proof.
  intros SIM X. destruct (sim_lookup _ _ (e_id x) x SIM X (serves_id s live x SIM X)) as (r & B & _).
  unfold find_route, child_at. rewrite B, N.eqb_refl. auto.
Qed.
Lemma route_live s live x : Sim (routes s) live -> (exists r, In (r, x) (routes s)) <-> In x live.
Proof.
  intro SIM. split.
  - intros (r & H). now apply (sim_in _ _ SIM) in H.
  - intro X. pose proof (sim_ep _ _ SIM) as F. rewrite Forall_forall in F. destruct (F x X) as (_ & _ & r & H & _). exists r. apply (sim_in _ _ SIM). auto.
Qed.
(** Removing a child leaves the others. *)
Lemma removed_routes s live x : Sim (routes s) live -> In x live ->
  exists t, remove_child (routes s) (e_id x) None = (true, t) /\ forall y, (exists r, In (r, y) t) <-> (exists r, In (r, y) (routes s)) /\ y <> x.
Proof.
  intros SIM X. destruct (sim_lookup _ _ (e_id x) x SIM X (serves_id s live x SIM X)) as (r & B & _).
  unfold remove_child. rewrite B, N.eqb_refl. cbn [negb]. eexists. split; [reflexivity|].
  pose proof (sim_ep _ _ SIM) as F. rewrite Forall_forall in F. destruct (F x X) as (G1 & G2 & _).
  destruct (erase_all (e_subs x) x (routes s) (sim_good _ _ SIM) (sim_sep _ _ SIM) G1 G2) as (_ & _ & I').
  { intros r' Hr'. apply (sim_in _ _ SIM). auto. }
  intro y. split.
  - intros (k & K). apply I' in K. cbn [fst snd] in K. destruct K as [K1 K2]. split; [eauto|]. intros ->. apply K2. split; [reflexivity|].
    now apply (sim_in _ _ SIM) in K1.
  - intros [(k & K) D]. exists k. apply I'. split; [exact K|]. cbn [fst snd]. now intros [].
Qed.
(** The state after the connections of [x] were closed. *)
Lemma after_reset s s1 s' x l : Inv s' -> es s1 = es s -> cs s1 = cs s ->
  (s' = ep_reset None false (e_ref x) s1 \/ s' = ep_drop (e_ref x) (ep_reset None false (e_ref x) s1)) -> (forall c, conn_ok (cs s c)) ->
  log s1 = l ->
  (exists m, log s' = m ++ l /\ forall t, In t m -> exists c, holds s (e_ref x) c /\ (t = TClose c \/ t = TInvalid c)) /\
  (forall c, holds s (e_ref x) c -> k_bind (cs s' c) = None /\ k_st (cs s' c) = Disconnected /\
     (k_st (cs s c) <> Disconnected -> k_kind (cs s' c) = KNone)) /\
  offline s' (e_ref x) /\ (forall c, ~ holds s (e_ref x) c -> cs s' c = cs s c) /\ (forall e, e <> e_ref x -> es s' e = es s e) /\
  parent s' = parent s1 /\ routes s' = routes s1.
Proof.
  intros I' E1 E2 E OK L.
  assert (HH : forall c, holds s1 (e_ref x) c <-> holds s (e_ref x) c) by (intro c; unfold holds; now rewrite E1).
  split; [|split; [|split; [|split; [|split]]]].
  - assert (Z : shutting (holds s1 (e_ref x)) s1 s') by (destruct E as [-> | ->]; [apply sh_ep_reset|apply sh_again]).
    destruct Z as (m & M & A). exists m. split; [congruence|]. intros t T. destruct (A t T) as (c & C & D). exists c. rewrite <- HH. auto.
  - intros c H. assert (V : cs s' c = resetted (cs s c)).
    { assert (V1 : cs (ep_reset None false (e_ref x) s1) c = resetted (cs s c)).
      { rewrite cs_ep_reset, E1, E2. destruct H as [H|H].
        - rewrite H. destruct (memb c _); [reflexivity|]. now rewrite (proj2 (opt_eqb_true (Some c) (Some c)) eq_refl).
        - apply memb_in in H. now rewrite H. }
      destruct E as [-> | ->]; [exact V1|]. unfold ep_drop. destruct (ep_held _ _); [exact V1|].
      rewrite cs_ep_reset, es_ep_reset, N.eqb_refl. cbn [stripped d_data d_ctrl memb existsb]. exact V1. }
    rewrite V. destruct (resetted_down _ (OK c)) as [A B]. split; [exact A|]. split; [exact B|].
    destruct (OK c) as (K & _). intro ND. unfold resetted, closed. destruct (k_st (cs s c)) eqn:ST; cbn; congruence.
  - assert (Q : es s' (e_ref x) = stripped (es s (e_ref x))).
    { destruct E as [-> | ->]; [|unfold ep_drop; destruct (ep_held _ _)]; rewrite ?es_ep_reset, ?N.eqb_refl, E1; reflexivity. }
    unfold offline. rewrite <- (I_timer s' I'), Q. cbn. repeat split; auto.
  - intros c H. assert (V1 : cs (ep_reset None false (e_ref x) s1) c = cs s c).
    { rewrite cs_ep_reset, E1, E2. destruct (memb c _) eqn:M; [elim H; right; now apply memb_in|].
      destruct (opt_eqb _ _) eqn:O; [|reflexivity]. elim H. left. now apply opt_eqb_true in O. }
    destruct E as [-> | ->]; [exact V1|]. unfold ep_drop. destruct (ep_held _ _); [exact V1|].
    rewrite cs_ep_reset, es_ep_reset, N.eqb_refl. cbn [stripped d_data d_ctrl memb existsb]. exact V1.
  - intros e D. apply N.eqb_neq in D. destruct E as [-> | ->]; [|unfold ep_drop; destruct (ep_held _ _)]; rewrite ?es_ep_reset, ?D, E1; reflexivity.
  - assert (K : forall g u, parent (ep_reset None g (e_ref x) u) = parent u /\ routes (ep_reset None g (e_ref x) u) = routes u) by (intros; split; fr1).
    destruct (K false s1) as [K1 K2], (K true (ep_reset None false (e_ref x) s1)) as [K3 K4].
    destruct E as [-> | ->]; [|unfold ep_drop; destruct (ep_held _ _)]; split; congruence.
Qed.

(** ** C75 *)
(** When [disconnect] returns success, exactly one node, with the given id, is taken out of
    service: its removal is reported, its connections are closed, and neither another node
    nor another connection is touched. *)
Theorem C75_disconnect s id s' : reachable s -> settled s -> node_disconnect id s = (s', E_OK) ->
  exists x l, dropped id x l s s'.
Proof.
  intros R S D. pose proof (reachable_Inv s R) as I. pose proof (reachable_noticed s R) as NO.
  destruct (reachable_routed s R S) as [(live & SIM) _].
  assert (R' : reachable s') by (change s' with (fst (s', E_OK)); rewrite <- D; now apply reachable_disconnect).
  pose proof (reachable_Inv s' R') as I'.
  assert (G : forall x s1, neighbour s x -> e_id x = id -> es s1 = es s -> cs s1 = cs s -> log s1 = TRemoved (e_ref x) :: TAsked id :: log s ->
    (s' = ep_reset None false (e_ref x) s1 \/ s' = ep_drop (e_ref x) (ep_reset None false (e_ref x) s1)) ->
    (forall y, neighbour s1 y <-> neighbour s y /\ y <> x) ->
    (parent s <> Some x -> forall y, neighbour s1 y -> e_id y <> id) -> exists l, dropped id x l s s').
  { intros x s1 N X E1 E2 L E NN AL.
    destruct (after_reset s s1 s' x _ I' E1 E2 E (I_conn s I) L) as ((m & M & Q) & B & O & C & T & P1 & P2).
    assert (NE : forall y, neighbour s' y <-> neighbour s1 y) by (intro y; unfold neighbour; now rewrite P1, P2).
    exists m. constructor; trivial.
    - intros c H ST K. destruct (B c H) as (_ & _ & KN). specialize (KN ST).
      apply (C74_open_iff s c R) in K. destruct K as [K1 K2].
      destruct (closed_in c m) as [Z|Z]; [exact Z|]. exfalso.
      assert (W : k_kind (cs s' c) <> KNone); [|contradiction]. apply (C74_open_iff s' c R'). rewrite M. split.
      + apply in_app_iff. right. right. now right.
      + intro W. apply in_app_iff in W. destruct W as [W|[W|[W|W]]]; [contradiction|discriminate|discriminate|contradiction].
    - intros c H. destruct (B c H) as (B1 & B2 & _). auto.
    - intro y. now rewrite NE.
    - intros P y Y. apply AL; [exact P|now apply NE]. }
  unfold node_disconnect in D.
  assert (F : (forall p, parent s = Some p -> e_id p <> id) -> match find_route (routes s) id with
      | Some e => if e_id e =? id
                  then let s := emit (TAsked id) s in
                       let s := match remove_child (routes s) id None, child_at (routes s) id with
                                | (true, t), Some x => emit (TRemoved (e_ref x)) (set_routes t s)
                                | _, _ => s
                                end in
                       (ep_reset None false (e_ref e) s, E_OK)
                  else (s, E_NOT_FOUND)
      | None => (s, E_NOT_FOUND)
      end = (s', E_OK) -> exists x l, dropped id x l s s').
  { intro NP. destruct (find_route (routes s) id) as [x|] eqn:FR; [|discriminate]. destruct (N.eqb_spec (e_id x) id) as [EI|]; [|discriminate].
    destruct (find_route_in _ _ _ FR) as (r & IN). assert (LX : In x live) by (apply (route_live s live x SIM); eauto).
    destruct (removed_routes s live x SIM LX) as (t & RM & RT). destruct (find_id s live x SIM LX) as [_ CH].
    rewrite EI in RM, CH. cbv zeta. change (routes (emit (TAsked id) s)) with (routes s). rewrite RM, CH. intro X. injection X as X.
    exists x. eapply G; try exact EI; [right; eauto| | | |left; symmetry; exact X| |]; try reflexivity.
    - intro y. unfold neighbour. cbn [routes parent emit set_routes set_log]. rewrite RT. split.
      + intros [Y|[Y1 Y2]]; [|now auto]. split; [now left|]. intros ->. apply (NP x Y EI).
      + intros [[Y|Y] D']; auto.
    - intros _ y [Y|Y]; cbn [routes parent emit set_routes set_log] in Y; [now apply NP|]. apply RT in Y. destruct Y as [Y1 Y2].
      intro EY. apply Y2. apply (route_live s live y SIM) in Y1. apply (sim_unique _ _ y x id SIM Y1 LX); rewrite <- ?EY, <- ?EI; [|].
      + now apply (serves_id s live y SIM).
      + rewrite EY. rewrite <- EI. now apply (serves_id s live x SIM). }
  destruct (parent s) as [p|] eqn:P; [|apply F; [discriminate|exact D]].
  destruct (N.eqb_spec id (e_id p)) as [EI|NI]; [|apply F; [intros q [= <-]; congruence|exact D]]. clear F.
  injection D as X. exists p. cbv zeta in X. eapply G; [now left|now symmetry| | | |right; symmetry; exact X| |]; try reflexivity.
  - intro y. unfold neighbour. cbn [routes parent emit set_parent set_log]. rewrite P. split.
    + intros [Y|[r Y]]; [discriminate|]. split; [right; eauto|]. intros ->. exact (route_apart s p NO P _ Y eq_refl).
    + intros [[Y|Y] D']; [injection Y as ->; contradiction|now right].
  - congruence.
Qed.
(** Otherwise the id is reported as not found, nothing at all changes, and the node is
    linked to no node with that id. *)
Theorem C75_not_found s id s' r : reachable s -> node_disconnect id s = (s', r) -> r <> E_OK ->
  r = E_NOT_FOUND /\ s' = s /\ (settled s -> forall y, neighbour s y -> e_id y <> id).
Proof.
  intros R D NE. unfold node_disconnect in D.
  assert (K : settled s -> (forall p, parent s = Some p -> e_id p <> id) ->
    match find_route (routes s) id with Some e => e_id e <> id | None => True end -> forall y, neighbour s y -> e_id y <> id).
  { intros S NP F y [Y|Y]; [now apply NP|]. intro EY. destruct (reachable_routed s R S) as [(live & SIM) _].
    apply (route_live s live y SIM) in Y. destruct (find_id s live y SIM Y) as [FI _]. rewrite EY in FI. rewrite FI in F. contradiction. }
  assert (F : (settled s -> forall p, parent s = Some p -> e_id p <> id) -> match find_route (routes s) id with
      | Some e => if e_id e =? id
                  then let s := emit (TAsked id) s in
                       let s := match remove_child (routes s) id None, child_at (routes s) id with
                                | (true, t), Some x => emit (TRemoved (e_ref x)) (set_routes t s)
                                | _, _ => s
                                end in
                       (ep_reset None false (e_ref e) s, E_OK)
                  else (s, E_NOT_FOUND)
      | None => (s, E_NOT_FOUND)
      end = (s', r) -> r = E_NOT_FOUND /\ s' = s /\ (settled s -> forall y, neighbour s y -> e_id y <> id)).
  { intros NP. destruct (find_route (routes s) id) as [x|].
    - destruct (N.eqb_spec (e_id x) id) as [EI|NI].
      + cbv zeta. intro X. injection X as _ X. now elim NE.
      + intro X. injection X as <- <-. split; [reflexivity|]. split; [reflexivity|]. intro S. now apply K; auto.
    - intro X. injection X as <- <-. split; [reflexivity|]. split; [reflexivity|]. intro S. now apply K; auto. }
  destruct (parent s) as [p|] eqn:P; [|apply F; [discriminate|exact D]].
  destruct (N.eqb_spec id (e_id p)) as [EI|NI]; [|apply F; [intros _ q [= <-]; congruence|exact D]].
  injection D as _ X. now elim NE.
Qed.
(** Disconnecting twice from a node that is not the parent finds nothing the second time. *)
Theorem C75_twice s id s' x l : reachable s -> node_disconnect id s = (s', E_OK) -> dropped id x l s s' -> parent s <> Some x ->
  node_disconnect id s' = (s', E_NOT_FOUND).
Proof.
  intros R D DR NP. pose proof (D_alone _ _ _ _ _ DR NP) as A. unfold node_disconnect.
  assert (F : match find_route (routes s') id with Some e => e_id e <> id | None => True end).
  { destruct (find_route (routes s') id) as [e|] eqn:FR; [|trivial]. destruct (find_route_in _ _ _ FR) as (r & IN). apply A. right. eauto. }
  assert (P : forall p, parent s' = Some p -> e_id p <> id) by (intros p P; apply A; now left).
  destruct (parent s') as [p|].
  - specialize (P p eq_refl). destruct (N.eqb_spec id (e_id p)); [congruence|].
    destruct (find_route (routes s') id) as [e|]; [|reflexivity]. destruct (N.eqb_spec (e_id e) id); [contradiction|reflexivity].
  - destruct (find_route (routes s') id) as [e|]; [|reflexivity]. destruct (N.eqb_spec (e_id e) id); [contradiction|reflexivity].
Qed.

(** A node with two children is disconnected from one of them, which has two connections. *)
Definition second (id : N) : list event := [EIo (IAccepted adr2); EIo (IRecv 4 (RMsg 10 (msg0 id (BReg false (reg0 id [])))))].
Example C75_case : exists s, reachable s /\ settled s /\ snd (node_disconnect 65540 s) = E_OK /\ holds s 2 2 /\ holds s 2 3 /\
  k_st (cs s 3) = Connected /\ k_kind (cs s 3) = KSock /\ map (fun p => e_id (snd p)) (routes s) = [65540; 65541] /\
  map (fun p => e_id (snd p)) (routes (fst (node_disconnect 65540 s))) = [65541] /\
  snd (node_disconnect 65540 (fst (node_disconnect 65540 s))) = E_NOT_FOUND.
Proof.
  observe (fun s => (log s, d_ep (es s 2), d_ep (es s 3), snd (node_disconnect 65540 s), d_ctrl (es s 2), d_data (es s 2), k_st (cs s 3), k_kind (cs s 3),
    map (fun p => e_id (snd p)) (routes s), map (fun p => e_id (snd p)) (routes (fst (node_disconnect 65540 s))),
    snd (node_disconnect 65540 (fst (node_disconnect 65540 s))))) (boot 65540 [] ++ second 65541).
  injection E as E1 E2 E3 E4 E5 E6 E7 E8 E9 E10 E11. exists s. split; [exact R|]. split.
  - intros e A. rewrite E1 in A. assert (X : e = 2 \/ e = 3) by (cbn [In] in A; intuition congruence).
    destruct X as [-> | ->]; rewrite ?E2, ?E3; unfold good_ep; cbn [e_subs e_id];
      (split; [repeat constructor; unfold good; cbn; lia|]; split; [repeat constructor|]; eexists; split; [now left|]; cbn; lia).
  - rewrite E4, E7, E8, E9, E10, E11. unfold holds. rewrite E5, E6. cbn [In]. auto 12.
Qed.
(** What is not so: that a node that gave up its parent says so.  After disconnecting from its
    parent the node has no parent but its state stays "running", not "lost parent". *)
Theorem C75_state_refuted : exists s, reachable s /\ snd (node_disconnect 1 s) = E_OK /\ x_parent (cf s) <> [] /\
  option_map e_id (parent s) = Some 1 /\ nst s = NRunning /\
  parent (fst (node_disconnect 1 s)) = None /\ nst (fst (node_disconnect 1 s)) = NRunning /\ popr (fst (node_disconnect 1 s)) = popr s.
Proof.
  observe (fun s => (snd (node_disconnect 1 s), x_parent (cf s), option_map e_id (parent s), nst s,
    parent (fst (node_disconnect 1 s)), nst (fst (node_disconnect 1 s)), popr (fst (node_disconnect 1 s)), popr s)) (up0 ++ EStart 100 :: up1).
  injection E as E1 E2 E3 E4 E5 E6 E7 E8. exists s. split; [exact R|]. rewrite E1, E2, E3, E4, E5, E6, E7, E8. repeat split; discriminate.
Qed.

Print Assumptions C75_disconnect.
Print Assumptions C75_not_found.
Print Assumptions C75_twice.
Print Assumptions C75_state_refuted.
