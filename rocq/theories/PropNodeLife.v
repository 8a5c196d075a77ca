(** Life of nodes, endpoints and connections: C34, C35, C39, C46. *)
From Verif Require Import Base Subnet Route Address NodeTypes NodeConn NodeCore NodeMsg Node
  NodeFrame NodeReset NodeInv NodeKeep NodeSteps NodeReach NodeSpec NodeLog NodeNotice NodeRoute NodeStat NodeExample.
Local Open Scope N_scope.
Ltac Zify.zify_post_hook ::= idtac.

(** ** C34: between two resets the up notification fires at most once, the down
    notification at most once and only after it. *)
Theorem C34_up_then_down_once s : reachable s -> phase_of (rev (log s)) <> None.
Proof. intros R E. apply reachable_updown in R. unfold updown in R. now rewrite E in R. Qed.
(** The user is told: after [init] and before [reset], "up" was reported exactly if the
    node is marked as activated, and "down" only if it is also shutting down. *)
Theorem C34_notification_matches_state s : reachable s ->
  (phase_of (rev (log s)) = Some Quiet <-> fl_act s = false) /\
  (phase_of (rev (log s)) = Some Down -> fl_shut s = true).
Proof.
  intro R. apply reachable_updown in R. unfold updown in R.
  destruct (phase_of (rev (log s))) as [[]|]; intuition congruence.
Qed.
Example C34_case : exists s, reachable s /\ phase_of (rev (log s)) = Some Down.
Proof.
  exact (witness (fun s => phase_of (rev (log s))) (boot 65540 [] ++ [EShutdown 3]) (Some Down) eq_refl).
Qed.
Example C34_case_reset : exists s, reachable s /\ phase_of (rev (log s)) = Some Up /\ In TReset (log s).
Proof.
  destruct (witness (fun s => (phase_of (rev (log s)), hd_error (filter (fun t => match t with TReset => true | _ => false end) (log s))))
    (boot 65540 [] ++ [EShutdown 3; EReset; EInit 65536 cfg0; EStart 5]) (Some Up, Some TReset)) as (s & R & E); [vm_compute; reflexivity|].
  injection E as E1 E2. exists s. split; [exact R|]. split; [exact E1|].
  destruct (filter _ (log s)) as [|t l] eqn:F; [discriminate|]. injection E2 as ->.
  apply (filter_In (fun t => match t with TReset => true | _ => false end)). rewrite F. now left.
Qed.

(** ** C35: notifications about one endpoint. *)
(** What the user sees of one endpoint: nothing, added, or added and then removed,
    where the removal is reported at least once and at most once per address range. *)
Theorem C35_added_before_removed_partial s e : reachable s ->
  let n := notified e (rev (log s)) in
  n = [] \/ n = [true] \/
  exists k, n = true :: repeat false (S k) /\ (S k <= Nat.max 1 (length (e_subs (d_ep (es s e)))))%nat.
Proof.
  intro R. apply reachable_noticed in R. cbv zeta. destruct (N_hist s R e) as [A|A B|k A B]; [now left|right; now left|].
  right. right. exists k. now split.
Qed.
(** With one range the notifications alternate. *)
Theorem C35_alternate_single_range s e : reachable s -> (length (e_subs (d_ep (es s e))) <= 1)%nat ->
  In (notified e (rev (log s))) [[]; [true]; [true; false]].
Proof.
  intros R L. destruct (C35_added_before_removed_partial s e R) as [->|[->|(k & -> & K)]]; cbn; auto.
  assert (k = 0%nat) by lia. subst. cbn. auto.
Qed.
(** The endpoints a node routes to are exactly among those reported as added and not
    yet removed. *)
Theorem C35_routed_endpoints_are_reported s x : reachable s ->
  parent s = Some x \/ (exists r, In (r, x) (routes s)) -> notified (e_ref x) (rev (log s)) = [true].
Proof.
  intros R T. apply reachable_noticed in R. apply (hist_present s (e_ref x)); [apply (N_hist s R)|].
  intros [A B]. rewrite entries_none in B. destruct T as [T|[r T]]; [now elim (A x T)|now elim (B (r, x) T)].
Qed.
(** Conversely, while every endpoint ever added announced separate ranges holding its id
    ([settled]), an endpoint reported as added and not as removed is routed to. *)
Theorem C35_reported_endpoints_are_routed s e : reachable s -> settled s -> notified e (rev (log s)) = [true] ->
  (exists x, parent s = Some x /\ e_ref x = e) \/ exists r x, In (r, x) (routes s) /\ e_ref x = e.
Proof.
  intros R S N. destruct (reachable_routed s R S) as [_ H]. destruct (H e N) as [A|([r x] & A & B)]; [now left|right; now exists r, x].
Qed.
(** With two ranges a reset reports the removal twice. *)
Theorem C35_alternate_refuted : exists s e, reachable s /\ notified e (rev (log s)) = [true; false; false].
Proof.
  destruct (witness (fun s => notified 2 (rev (log s))) (boot 65540 [{|c_prefix:=65792;c_mask:=8|}] ++ [EReset]) [true; false; false])
    as (s & R & E); [vm_compute; reflexivity|]. now exists s, 2.
Qed.
Example C35_case : exists s r x, reachable s /\ In (r, x) (routes s) /\ e_id x = 65540 /\ length (e_subs (d_ep (es s (e_ref x)))) = 1%nat.
Proof.
  destruct (witness (fun s => match routes s with [(r, x)] => Some (e_ref x, e_id x, length (e_subs (d_ep (es s (e_ref x))))) | _ => None end)
    (boot 65540 []) (Some (2, 65540, 1%nat))) as (s & R & E); [vm_compute; reflexivity|].
  destruct (routes s) as [|[r x] []] eqn:T; try discriminate. injection E as E1 E2 E3. exists s, r, x. rewrite T. repeat split; trivial. now left.
Qed.

Example C35_converse_case : exists s, reachable s /\ notified 2 (rev (log s)) = [true] /\ settled s /\ exists p, routes s = [p].
Proof.
  observe (fun s => (log s, notified 2 (rev (log s)), d_ep (es s 2), length (routes s))) (boot 65540 []).
  injection E as E1 E2 E3 E4. exists s. split; [exact R|]. split; [exact E2|]. split; [|destruct (routes s) as [|p [|]]; try discriminate; eauto].
  intros e A. rewrite E1 in A. assert (e = 2) by (repeat (destruct A as [A|A]; [congruence|]); destruct A). subst e. rewrite E3.
  unfold RouteProof.good_ep. cbn [e_subs e_id].
  split; [repeat constructor; unfold RouteProof.good; cbn; lia|]. split; [repeat constructor|]. eexists. split; [now left|]. cbn. lia.
Qed.

(** ** C39: statistics of a connection. *)
(** In count and bytes: started = succeeded + failed + accepted by the transport and
    not yet reported back.  For memory channels there is nothing in flight. *)
Theorem C39_messages_are_conserved s c : reachable s ->
  match k_kind (cs s c) with
  | KSock | KListen => plus2 (k_start (cs s c)) (msgs_reported c (rev (log s))) =
              plus2 (plus2 (k_ok (cs s c)) (k_fail (cs s c))) (msgs_accepted c (rev (log s)))
  | _ => k_start (cs s c) = plus2 (k_ok (cs s c)) (k_fail (cs s c))
  end.
Proof.
  intro R. apply reachable_fair in R. destruct (R c) as (_ & _ & [[]|E]). unfold eqn in E. destruct (k_kind (cs s c)); apply E.
Qed.
(** Those counted as succeeded are those the transport reported as written, since it was
    last closed; on a memory channel, only messages it accepted. *)
Theorem C39_success s c : reachable s ->
  match k_kind (cs s c) with
  | KSock | KListen => k_ok (cs s c) = msgs_written c (rev (log s))
  | KNone => k_ok (cs s c) = (0, 0)
  | _ => fst (k_ok (cs s c)) <= fst (msgs_accepted c (rev (log s))) /\
         snd (k_ok (cs s c)) <= snd (msgs_accepted c (rev (log s)))
  end.
Proof.
  intro R. apply reachable_fair in R. destruct (R c) as (_ & _ & [[]|E]). unfold eqn in E. destruct (k_kind (cs s c)); apply E.
Qed.
(** Hence, when the transport reports only what it accepted. *)
Theorem C39_in_flight s c inflight : reachable s -> k_kind (cs s c) = KSock ->
  msgs_accepted c (rev (log s)) = plus2 (msgs_reported c (rev (log s))) inflight ->
  k_start (cs s c) = plus2 (plus2 (k_ok (cs s c)) (k_fail (cs s c))) inflight.
Proof.
  intros R K A. pose proof (C39_messages_are_conserved s c R) as E. rewrite K, A in E.
  revert E. generalize (k_start (cs s c)) (k_ok (cs s c)) (k_fail (cs s c)) (msgs_reported c (rev (log s))).
  intros a b d f E. destruct inflight. pairs.
Qed.
(** A write that the transport refuses after queueing is counted as failed at once and
    again when it is reported: then more messages finish than were started. *)
Theorem C39_started_covers_finished_refuted : exists s c, reachable s /\
  fst (k_start (cs s c)) < fst (k_ok (cs s c)) + fst (k_fail (cs s c)).
Proof.
  destruct (witness (fun s => (k_start (cs s 3), k_ok (cs s 3), k_fail (cs s 3)))
    (boot 65540 [] ++ [EWorld [-610]%Z []; ESend 65540 1 [1;2] false 0; EIo (IWritten 3 0 40); EIo (IWritten 3 0 40)])
    ((2, 80), (2, 80), (1, 40))) as (s & R & E); [vm_compute; reflexivity|].
  injection E as E1 E2 E3. exists s, 3. split; [exact R|]. rewrite E1, E2, E3. reflexivity.
Qed.
Example C39_case : exists s, reachable s /\ k_kind (cs s 3) = KSock /\
  msgs_accepted 3 (rev (log s)) = plus2 (msgs_reported 3 (rev (log s))) (2, 80) /\
  k_start (cs s 3) = (3, 120) /\ k_ok (cs s 3) = (1, 40).
Proof.
  destruct (witness (fun s => (k_kind (cs s 3), msgs_accepted 3 (rev (log s)), msgs_reported 3 (rev (log s)), k_start (cs s 3), k_ok (cs s 3)))
    (boot 65540 [] ++ [ESend 65540 1 [1;2] false 0; ESend 65540 1 [1;2] false 0; EIo (IWritten 3 0 40)])
    (KSock, (3, 120), (1, 40), (3, 120), (1, 40))) as (s & R & E); [vm_compute; reflexivity|].
  injection E as E1 E2 E3 E4 E5. exists s. rewrite E2, E3. now repeat split.
Qed.

(** ** C46: endpoints and connections stay consistent. *)
(** A connection is bound to the one endpoint that holds it, once; an endpoint has a
    ping timer exactly if the timer list says so. *)
Theorem C46_bound_iff_held s : reachable s ->
  (forall c e, k_bind (cs s c) = Some e <-> d_ctrl (es s e) = Some c \/ In c (d_data (es s e))) /\
  (forall e, NoDup (d_data (es s e)) /\ forall c, d_ctrl (es s e) = Some c -> ~ In c (d_data (es s e))) /\
  (forall e, d_timer (es s e) = true <-> In e (map snd (pings s))).
Proof.
  intro R. apply reachable_Inv in R. split; [|split].
  - intros c e. rewrite (I_bind s R). unfold conns. destruct (d_ctrl (es s e)) as [x|]; cbn [In]; intuition congruence.
  - intro e. pose proof (I_nodup s R e) as N. unfold conns in N. destruct (d_ctrl (es s e)) as [x|]; [|now split].
    inversion N as [|? ? A B]; subst. split; [exact B|]. intros c E. injection E as <-. exact A.
  - apply (I_timer s R).
Qed.
Definition offline (s : node) (e : N) : Prop :=
  d_ctrl (es s e) = None /\ d_data (es s e) = [] /\ d_listen (es s e) = [] /\ ~ In e (map snd (pings s)).
Definition holds (s : node) (e c : N) : Prop := d_ctrl (es s e) = Some c \/ In c (d_data (es s e)).
Lemma holds_conns s e c : holds s e c <-> In c (conns (es s e)).
Proof.
  unfold holds, conns. destruct (d_ctrl (es s e)); cbn [In]; intuition congruence.
Qed.
Lemma resetted_down k : conn_ok k -> k_bind (resetted k) = None /\ k_st (resetted k) = Disconnected.
Proof. intros (A & _). unfold resetted, closed. destruct (k_st k) eqn:E; try contradiction; cbn; auto. Qed.
(** The peer closes a connection of an endpoint: if it was the control connection or the
    last data connection the endpoint goes offline as a whole, otherwise it loses just
    that connection; nothing else changes. *)
Theorem C46_losing_a_connection s c e : reachable s -> nst s <> NCreated ->
  k_kind (cs s c) = KSock -> k_bind (cs s c) = Some e ->
  let s' := io_step (IClosed c) s in
  (d_ctrl (es s e) = Some c \/ d_data (es s e) = [c] ->
     offline s' e /\ (forall x, holds s e x -> k_bind (cs s' x) = None /\ k_st (cs s' x) = Disconnected) /\
     (forall x, ~ holds s e x -> cs s' x = cs s x)) /\
  (~ (d_ctrl (es s e) = Some c \/ d_data (es s e) = [c]) ->
     k_bind (cs s' c) = None /\ k_st (cs s' c) = Disconnected /\ ~ holds s' e c /\
     (forall x, x <> c -> cs s' x = cs s x /\ (holds s' e x <-> holds s e x))) /\
  (forall e', e' <> e -> es s' e' = es s e').
Proof.
  intros R N K B. cbv zeta. assert (E : io_step (IClosed c) s = conn_reset c s).
  { unfold io_step, peer_closed, linked. rewrite K. now destruct (nst s). }
  rewrite E. clear E. apply reachable_Inv in R. pose proof (Inv_listed s R) as L.
  assert (DR : drops (es s e) c = true <-> d_ctrl (es s e) = Some c \/ d_data (es s e) = [c]).
  { unfold drops. rewrite orb_true_iff, opt_eqb_true, andb_true_iff, memb_in.
    pose proof (I_nodup s R e) as ND.
    assert (ND' : NoDup (d_data (es s e))) by (unfold conns in ND; destruct (d_ctrl (es s e)); [now inversion ND|exact ND]).
    split; (intros [H|H]; [now left|right]).
    - destruct H as [H1 H2]. revert ND' H1 H2. generalize (d_data (es s e)). intros [|a [|b l]] ND' H1 H2; [destruct H1|..].
      + destruct H1 as [->|[]]. reflexivity.
      + exfalso. inversion ND' as [|? ? X Y]; subst. cbn in X.
        assert (Z : forall y, In y (a :: b :: l) -> y = c).
        { intros y Iy. destruct (N.eq_dec y c) as [|D]; trivial. assert (Q : In y (rm c (a :: b :: l))) by now apply in_rm.
          destruct (rm c (a :: b :: l)); [destruct Q|discriminate]. }
        apply X. left. rewrite (Z a), (Z b); cbn; auto.
    - rewrite H. split; [now left|]. cbn. now rewrite N.eqb_refl. }
  assert (O : forall x, cs (conn_reset c s) x = if memb x (victims s c) then resetted (cs s x) else cs s x)
    by (intro; now apply cs_conn_reset).
  assert (Q : forall x, es (conn_reset c s) x = _) by (intro; now apply es_conn_reset). rewrite B in Q.
  assert (V : forall x, In x (victims s c) <-> x = c \/ (drops (es s e) c = true /\ holds s e x)).
  { intro x. unfold victims. rewrite B, holds_conns. destruct (drops (es s e) c); cbn [In]; intuition congruence. }
  assert (HC : holds s e c) by (apply holds_conns; now apply (I_bind s R)).
  assert (R' : Inv (conn_reset c s)) by now apply keep_creset.
  split; [|split].
  - intro H. apply DR in H. split; [|split].
    + unfold offline. rewrite <- (I_timer _ R' e). specialize (Q e). rewrite N.eqb_refl, H in Q. rewrite Q. cbn. repeat split; auto.
    + intros x X. rewrite O. assert (M : memb x (victims s c) = true) by (apply memb_in, V; now right). rewrite M.
      apply resetted_down, (I_conn s R).
    + intros x X. rewrite O. destruct (memb x (victims s c)) eqn:M; [|reflexivity]. apply memb_in, V in M as [->|[_ M]]; contradiction.
  - intro H. assert (D : drops (es s e) c = false) by (destruct (drops (es s e) c); [elim H; now apply DR|reflexivity]).
    rewrite D in V. specialize (Q e). rewrite N.eqb_refl, D in Q.
    assert (M : memb c (victims s c) = true) by (apply memb_in, V; now left).
    rewrite O, M. destruct (resetted_down _ (I_conn s R c)) as [X1 X2]. split; [exact X1|]. split; [exact X2|].
    assert (NC : d_ctrl (es s e) <> Some c) by (intro; apply H; now left).
    split.
    + unfold holds. rewrite Q. cbn. rewrite in_rm. intuition.
    + intros x X. rewrite O. destruct (memb x (victims s c)) eqn:M'; [apply memb_in, V in M' as [->|[M' _]]; congruence|].
      split; [reflexivity|]. unfold holds. rewrite Q. cbn. rewrite in_rm. intuition.
  - intros e' D. rewrite Q. destruct (N.eqb_spec e' e); [contradiction|reflexivity].
Qed.
(** [disconnect] takes the endpoint with that id offline. *)
Theorem C46_disconnect s id s' : reachable s -> node_disconnect id s = (s', E_OK) ->
  exists x, e_id x = id /\ offline s' (e_ref x) /\
    forall c, holds s (e_ref x) c -> k_bind (cs s' c) = None /\ k_st (cs s' c) = Disconnected.
Proof.
  intros R D. apply reachable_Inv in R.
  assert (I' : Inv s').
  { change s' with (fst (s', E_OK)). rewrite <- D. eapply steps_Inv; [now apply (st_node_disconnect true)|exact R]. }
  assert (G : forall x s1, es s1 = es s -> cs s1 = cs s -> s' = ep_reset None false (e_ref x) s1 \/ s' = ep_reset None true (e_ref x) (ep_reset None false (e_ref x) s1) ->
    offline s' (e_ref x) /\ forall c, holds s (e_ref x) c -> k_bind (cs s' c) = None /\ k_st (cs s' c) = Disconnected).
  { intros x s1 E1 E2 E.
    assert (Q : es s' (e_ref x) = stripped (es s (e_ref x))).
    { destruct E as [-> | ->]; rewrite ?es_ep_reset, ?N.eqb_refl, E1; reflexivity. }
    split.
    - unfold offline. rewrite <- (I_timer s' I'), Q. cbn. repeat split; auto.
    - intros c H. assert (V : cs s' c = resetted (cs s c)).
      { assert (V1 : cs (ep_reset None false (e_ref x) s1) c = resetted (cs s c)).
        { rewrite cs_ep_reset, E1, E2. destruct H as [H|H].
          - rewrite H. destruct (memb c _); [reflexivity|]. now rewrite (proj2 (opt_eqb_true (Some c) (Some c)) eq_refl).
          - apply memb_in in H. now rewrite H. }
        destruct E as [-> | ->]; [exact V1|]. rewrite cs_ep_reset, es_ep_reset, N.eqb_refl. cbn [stripped d_data d_ctrl memb existsb]. exact V1. }
      rewrite V. apply resetted_down, (I_conn s R). }
  unfold node_disconnect in D.
  assert (F : match find_route (routes s) id with
      | Some e => if e_id e =? id
                  then let s := emit (TAsked id) s in
                       let s := match remove_child (routes s) id None, child_at (routes s) id with
                                | (true, t), Some x => emit (TRemoved (e_ref x)) (set_routes t s)
                                | _, _ => s
                                end in
                       (ep_reset None false (e_ref e) s, E_OK)
                  else (s, E_NOT_FOUND)
      | None => (s, E_NOT_FOUND)
      end = (s', E_OK) -> exists x, e_id x = id /\ offline s' (e_ref x) /\
    forall c, holds s (e_ref x) c -> k_bind (cs s' c) = None /\ k_st (cs s' c) = Disconnected).
  { destruct (find_route (routes s) id) as [e|]; [|discriminate]. destruct (N.eqb_spec (e_id e) id) as [EI|]; [|discriminate].
    cbv zeta. intro X. exists e. split; [exact EI|]. injection X as X.
    match type of X with ep_reset _ _ _ ?s1 = _ => apply (G e s1); [| |left; now symmetry] end;
      destruct (remove_child _ _ _) as [[] t]; try destruct (child_at _ _); reflexivity. }
  destruct (parent s) as [p|]; [|now apply F]. destruct (N.eqb_spec id (e_id p)) as [EI|]; [|now apply F].
  exists p. split; [now symmetry|]. injection D as X. cbv zeta in X.
  apply (G p (emit (TRemoved (e_ref p)) (set_parent None (emit (TAsked id) s)))); [reflexivity|reflexivity|].
  unfold ep_drop in X. destruct (ep_held _ _); [left|right]; now symmetry.
Qed.
Example C46_disconnect_case : exists s, reachable s /\ snd (node_disconnect 65540 s) = E_OK /\ holds s 2 3.
Proof.
  destruct (witness (fun s => (snd (node_disconnect 65540 s), d_data (es s 2))) (boot 65540 []) (E_OK, [3])) as (s & R & E); [vm_compute; reflexivity|].
  injection E as E1 E2. exists s. split; [exact R|]. split; [exact E1|]. right. rewrite E2. now left.
Qed.
Example C46_case : exists s, reachable s /\ nst s <> NCreated /\ k_kind (cs s 2) = KSock /\ k_bind (cs s 2) = Some 2 /\
  d_ctrl (es s 2) = Some 2 /\ d_data (es s 2) = [3] /\ In 2 (map snd (pings s)).
Proof.
  destruct (witness (fun s => (nst s, k_kind (cs s 2), k_bind (cs s 2), d_ctrl (es s 2), d_data (es s 2), map snd (pings s)))
    (boot 65540 []) (NRunning, KSock, Some 2, Some 2, [3], [2])) as (s & R & E); [vm_compute; reflexivity|].
  injection E as E1 E2 E3 E4 E5 E6. exists s. rewrite E1, E6. repeat split; trivial; [discriminate|cbn; auto].
Qed.

Print Assumptions C34_up_then_down_once.
Print Assumptions C34_notification_matches_state.
Print Assumptions C35_added_before_removed_partial.
Print Assumptions C35_alternate_single_range.
Print Assumptions C35_routed_endpoints_are_reported.
Print Assumptions C35_reported_endpoints_are_routed.
Print Assumptions C35_alternate_refuted.
Print Assumptions C39_messages_are_conserved.
Print Assumptions C39_success.
Print Assumptions C39_in_flight.
Print Assumptions C39_started_covers_finished_refuted.
Print Assumptions C46_bound_iff_held.
Print Assumptions C46_losing_a_connection.
Print Assumptions C46_disconnect.
