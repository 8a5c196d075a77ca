(** Properties of the clock driven part of a node: unfinished connections. *)
From Coq Require Import Sorted.
From Verif Require Import Base Subnet Route Address NodeTypes NodeConn NodeCore NodeMsg Node
  NodeFrame NodeReset NodeInv NodeKeep NodeSteps NodeCtx NodeReach NodeSpec NodeLog NodeAuth NodeTime NodeExample.
Local Open Scope N_scope.
Ltac Zify.zify_post_hook ::= idtac.

(** ** C38: unfinished connections time out *)
(** [steady 0 evs]: the times given to [start] do not lie before earlier times.
    After any call of [proc now] no unfinished connection has a deadline before [now]. *)
Theorem C38_no_overdue_partial n evs now feed s :
  steady 0 evs -> run n (evs ++ [EProc now feed]) new_node = Some s ->
  forall t c, In (t, c) (connecting s) -> now <= t.
Proof. intros S R t c P. now apply (proj2 (steady_proc _ _ _ _ _ S R) (t, c)). Qed.
(** A deadline is never further away than the configured time, so that an unfinished
    connection is gone after the first [proc] later than that. *)
Theorem C38_deadline_partial n evs s : steady 0 evs -> run n evs new_node = Some s ->
  forall t c, In (t, c) (connecting s) -> t <= sec s + x_first (cf s).
Proof. intros S R t c P. destruct (steady_timed _ _ _ S R) as [_ T]. now apply (D_bound s T (t, c)). Qed.
(** A connection that appears during a call gets the deadline that lies the configured
    time after the present (the clock before and after a call only differ for [start] and
    [proc]). *)
Theorem C38_new_deadline_partial n evs ev s s' t c : steady 0 (evs ++ [ev]) -> run n evs new_node = Some s -> step n ev s = Some s' ->
  In (t, c) (connecting s') -> ~ In (t, c) (connecting s) ->
  sec s + x_first (cf s') <= t <= sec s' + x_first (cf s').
Proof.
  intros S R X P Q. pose proof (steady_app _ _ _ S) as S1.
  destruct (steady_run n evs 0 new_node s good_new timed_new (N.le_refl 0) S1 R) as (G & T & C).
  assert (PU : punctual false ev s).
  { clear - S C. assert (H : forall l t, sec s <= clock t l -> steady t (l ++ [ev]) -> punctual false ev s).
    { induction l as [|x l IH]; intros t H K.
      - cbn in H. destruct ev; cbn in *; trivial. right. lia.
      - cbn [app clock] in *. apply (IH (clock_after x t)); [exact H|]. destruct x; cbn in *; try exact K. destruct K as [K1 K2]. now rewrite N.max_r. }
    now apply (H evs 0). }
  pose proof (does_step false n ev s s' G PU X) as D.
  destruct (does_dated s s' (proj1 G) T D) as (_ & _ & H). destruct (H _ P) as [H'|H']; [now elim Q|exact H'].
Qed.
(** A call of [proc] that finds no waiting message closes each overdue unfinished
    connection and reports it. *)
Lemma proc_parts n now s s' : good s -> nst s <> NCreated -> fl_shut s = false -> proc n now [] s = Some s' ->
  exists s1, (s1 = s \/ s1 = set_sec now s /\ sec s < now) /\
  does true (sweep (length (connecting s)) now s1) s' /\ good s1.
Proof.
  intros G C F X. unfold proc in X. set (s1 := if sec s <? now then set_sec now s else s) in *.
  assert (D : does true s s1 /\ now <= sec s1).
  { subst s1. destruct (N.ltb_spec (sec s) now) as [L|L]; [|split; [now apply does_refl|exact L]].
    split; [apply does_sec; [exact G|lia]|cbn; lia]. }
  exists s1. assert (E1 : nst s1 = nst s /\ fl_shut s1 = false /\ connecting s1 = connecting s).
  { subst s1. destruct (sec s <? now); auto. }
  split; [subst s1; destruct (N.ltb_spec (sec s) now); auto|].
  destruct D as [D W]. apply good_of in D. clearbody s1. destruct E1 as (E1 & E2 & E3). split; [|exact D].
  cbv zeta in X. cbn [fold_left] in X. rewrite E2, E3 in X.
  assert (X' : match ping_loop n now None (parent_op now (sweep (length (connecting s)) now s1)) with
        | None => None
        | Some s => Some (stop_if_shut (collect (fst (dispatch_self s))))
        end = Some s') by (rewrite E1 in X; destruct (nst s); [now elim C|exact X..]).
  clear X E1 E2 E3 C F. set (k := length _) in *. clearbody k. clear G s.
  assert (D2 : does true s1 (sweep k now s1)) by (eapply (does_steps true true); [exact D|apply st_sweep, D|apply kc_sweep]).
  assert (W2 : now <= sec (sweep k now s1)) by (destruct (kc_sweep k now s1) as [_ _ E _]; now rewrite E).
  set (s3 := sweep k now s1) in *. clearbody s3. apply good_of in D2.
  assert (D3 : does true s3 (parent_op now s3)) by (eapply (does_steps true true); [exact D2|apply st_parent_op, D2|apply kc_parent_op]).
  assert (W3 : now <= sec (parent_op now s3)) by (destruct (kc_parent_op now s3) as [_ _ E _]; now rewrite E).
  eapply does_trans; [exact D3|]. set (s4 := parent_op now s3) in *. clearbody s4. apply good_of in D3.
  destruct (ping_loop n now None s4) as [s5|] eqn:PL; [|discriminate]. injection X' as <-.
  assert (D4 : does true s4 s5).
  { eapply (does_steps true true); [exact D3| |eapply kc_ping_loop; exact PL].
    apply (st_ping_loop true now n None s4 s5); [apply D3|exact W3|intros ? X; discriminate X|exact PL]. }
  eapply does_trans; [exact D4|]. apply does_round, D4.
Qed.
Theorem C38_reported_partial n evs now s s' t c : steady 0 evs -> run n evs new_node = Some s ->
  nst s <> NCreated -> fl_shut s = false -> In (t, c) (connecting s) -> t < now -> k_st (cs s c) <> Connected ->
  proc n now [] s = Some s' -> gained s s' (TInvalid c).
Proof.
  intros S R C F P L K X. destruct (steady_timed _ _ _ S R) as [G T].
  destruct (proc_parts n now s s' G C F X) as (s1 & E & D & G1).
  assert (Q : connecting s1 = connecting s /\ cs s1 = cs s /\ log s1 = log s /\ timed s1).
  { destruct E as [->|[-> L']]; [auto|]. split; [reflexivity|]. split; [reflexivity|]. split; [reflexivity|].
    destruct T as [T1 T2 T3]. constructor; trivial. cbn. intros p Q. apply T2 in Q. lia. }
  destruct Q as (Q1 & Q2 & Q3 & T1). rewrite <- Q1 in P, D. clear E.
  assert (K1 : is_connected s1 c = false) by (unfold is_connected; rewrite Q2; destruct (k_st (cs s c)); trivial; now elim K).
  pose proof (sweep_told now s1 t c (proj1 G1) T1 P L K1) as H.
  assert (G2 : Inv (sweep (length (connecting s1)) now s1)) by (eapply steps_Inv; [apply (st_sweep true)|]; apply G1).
  destruct (does_longer true _ _ G2 D) as [l2 E2].
  destruct (does_longer true s1 (sweep (length (connecting s1)) now s1) (proj1 G1)) as [l1 E1].
  { eapply (does_steps true true); [exact G1|apply st_sweep, G1|apply kc_sweep]. }
  exists (l2 ++ l1). split; [rewrite E2, E1, Q3; apply app_assoc|]. apply in_or_app. right.
  unfold invs in H. rewrite E1, filter_app, app_length in H.
  destruct (filter (is_inv c) l1) as [|x l] eqn:FL; [cbn in H; lia|].
  assert (X' : In x (filter (is_inv c) l1)) by (rewrite FL; now left).
  apply filter_In in X' as [X1 X2]. destruct x; try discriminate. cbn in X2. apply N.eqb_eq in X2. now subst.
Qed.
(** The check closes it: its socket is gone. *)
Theorem C38_closed_partial n evs now s t c : steady 0 evs -> run n evs new_node = Some s ->
  In (t, c) (connecting s) -> t < now -> k_st (cs s c) <> Connected ->
  let s' := sweep (length (connecting s)) now s in
  k_st (cs s' c) = Disconnected /\ k_kind (cs s' c) <> KSock /\ k_kind (cs s' c) <> KListen.
Proof.
  intros S R P L K. destruct (steady_timed _ _ _ S R) as [[I _] T]. cbv zeta.
  assert (K1 : is_connected s c = false) by (unfold is_connected; destruct (k_st (cs s c)); trivial; now elim K).
  pose proof (sweep_closed now s t c I T P L K1) as H. split; [exact H|].
  assert (I' : Inv (sweep (length (connecting s)) now s)) by (eapply steps_Inv; [apply (st_sweep true), I|exact I]).
  now apply (I_conn _ I' c).
Qed.
(** Nothing else is closed by the check: every connection it touches is overdue and
    unfinished itself, or bound to the same endpoint as one that is. *)
Theorem C38_only_overdue s now n c : reachable s -> cs (sweep n now s) c <> cs s c ->
  exists t c0, In (t, c0) (connecting s) /\ t < now /\ k_st (cs s c0) <> Connected /\
    (c = c0 \/ exists e, k_bind (cs s c) = Some e /\ k_bind (cs s c0) = Some e).
Proof.
  intros R H. destruct (sweep_only now n s c (reachable_Inv s R) H) as (t & c0 & A & B & K & D).
  exists t, c0. split; [exact A|]. split; [exact B|]. split; [|exact D].
  intro X. unfold is_connected in K. rewrite X in K. discriminate.
Qed.
Definition halfway := [EInit 65536 cfg0; EStart 100; EConnect adr; EProc 110 []; EConnect adr2].
Example C38_case : steady 0 halfway /\ exists s, run fuel0 halfway new_node = Some s /\
  connecting s = [(130, 1); (140, 2)] /\ nst s <> NCreated /\ fl_shut s = false /\ k_st (cs s 1) <> Connected /\
  sec s = 110 /\ x_first (cf s) = 30.
Proof.
  split; [cbn; lia|].
  apply (witness_run (fun s => connecting s = [(130, 1); (140, 2)] /\ nst s <> NCreated /\ fl_shut s = false /\ k_st (cs s 1) <> Connected /\
    sec s = 110 /\ x_first (cf s) = 30) (fun s => (connecting s, nst s, fl_shut s, k_st (cs s 1), sec s, x_first (cf s)))
    _ ([(130, 1); (140, 2)], NRunning, false, Connecting, 110, 30)); [vm_compute; reflexivity|].
  intros s E. injection E as -> -> -> -> -> ->. repeat split; discriminate.
Qed.
(** With the clock set back by a second [start] a connection outlives its deadline: the
    second connection should be gone at 80, but is still there after [proc 90]. *)
Definition set_back := [EInit 65536 cfg0; EStart 100; EConnect adr; EStart 50; EConnect adr2].
Theorem C38_clock_set_back_refuted : exists s, run fuel0 (set_back ++ [EProc 90 []]) new_node = Some s /\
  In (80, 2) (connecting s) /\ k_st (cs s 2) = Connecting.
Proof.
  apply (witness_run (fun s => In (80, 2) (connecting s) /\ k_st (cs s 2) = Connecting) (fun s => (connecting s, k_st (cs s 2)))
    _ ([(130, 1); (80, 2)], Connecting)); [vm_compute; reflexivity|].
  intros s E. injection E as -> ->. split; [right; now left|reflexivity].
Qed.
Print Assumptions C38_no_overdue_partial.
Print Assumptions C38_deadline_partial.
Print Assumptions C38_new_deadline_partial.
Print Assumptions C38_reported_partial.
Print Assumptions C38_closed_partial.
Print Assumptions C38_only_overdue.
Print Assumptions C38_clock_set_back_refuted.
