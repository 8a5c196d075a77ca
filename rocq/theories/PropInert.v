(** A node that is not initialised: C76. *)
From Verif Require Import Base Subnet Route Address NodeTypes NodeConn NodeCore NodeMsg Node
  NodeFrame NodeReset NodeInv NodeKeep NodeSteps NodeCtx NodeReach NodeSpec NodeLog NodeTime NodeInert NodeExample.
Local Open Scope N_scope.
Ltac Zify.zify_post_hook ::= idtac.

(** ** C76 *)
(** Nothing is left of the links and timers of a node. *)
Record blank (s : node) : Prop := {
  B_state : nst s = NCreated;
  B_nodes : parent s = None /\ routes s = [];
  B_timers : pings s = [] /\ connecting s = [];
  B_operations : pend s = [] /\ lpend s = [];
  B_queues : qdata s = [] /\ qcmd s = [];
  B_polled : procs s = [];
  B_own : forall e c, self s = Some e -> d_ctrl (es s (e_ref e)) <> Some c /\ ~ In c (d_data (es s (e_ref e))) }.
Lemma asleep_blank s : asleep s -> blank s.
Proof.
  intros [A B C D E F G H I J K L M N O]. constructor; auto. intros e c X. specialize (O e X). unfold conns in O.
  destruct (d_ctrl (es s (e_ref e))); [discriminate|]. rewrite O. split; [discriminate|intros []].
Qed.
(** Resetting a node, whatever it was doing, leaves nothing of its links, timers, pending
    operations and queues. *)
Theorem C76_reset s : reachable s -> blank (reset s) /\ exists l, log (reset s) = TReset :: l.
Proof.
  intro R. pose proof (reachable_good s R) as G. split; [now apply asleep_blank, asleep_reset|].
  destruct (reset_split s (proj1 G)) as (m & _ & _ & _ & _ & _ & _ & _ & ->); [apply (idle_flags s (proj2 G))|]. now exists (log m).
Qed.
(** A node that is not initialised (new, or reset since) is inert: whatever calls are made and
    whatever the network does, until it is initialised there is no callback, nothing is sent, no
    connection is opened or closed, and it stays as blank as it was.  None of the calls hangs. *)
Theorem C76_inert s n evs : reachable s -> nst s = NCreated -> (forall id x, ~ In (EInit id x) evs) ->
  exists s' l, run n evs s = Some s' /\ blank s' /\ log s' = l ++ log s /\ forall t, In t l -> t = TBegin \/ t = TReset.
Proof.
  intros R N NI. assert (NI' : forallb (fun ev => negb (inits ev)) evs = true).
  { apply forallb_forall. intros ev E. destruct ev; try reflexivity. now elim (NI id x). }
  destruct (run_asleep n evs s (reachable_good s R) (reachable_asleep s R N) NI') as (s' & S & Z & l & L & F).
  exists s', l. split; [exact S|]. split; [now apply asleep_blank|]. split; [exact L|]. rewrite Forall_forall in F. exact F.
Qed.
(** The calls say so. *)
Theorem C76_answers s n ev : reachable s -> nst s = NCreated -> (forall id x, ev <> EInit id x) ->
  exists s', step_ret n ev s = Some (s', answer ev).
Proof.
  intros R N NI. assert (NI' : inits ev = false) by (destruct ev; try reflexivity; now elim (NI id x)).
  destruct (step_asleep n ev s (reachable_good s R) (reachable_asleep s R N) NI') as (s' & S & _). eauto.
Qed.

(** A node with a child, a listening socket and a pending connect is reset and then used. *)
Definition late : list event := [ESend 65540 1 [1] false 0; EDisconnect 65540; EProc 200 [(2, [])]; EPoll [IAccepted adr; IConnected 4 0];
  EShutdown 0; EPoll []; EConnect adr].
Lemma reachable_reset s : reachable s -> reachable (reset s).
Proof.
  intros (k & evs & R). exists k, (evs ++ [EReset]). rewrite run_app, R. cbn [run step step_ret option_map fst]. exact eq_refl.
Qed.
Definition reset_log (s : node) : list tr := log (reset s).
Definition late_log (s : node) : list tr := match run fuel0 late (reset s) with Some s' => skipn 2 (log s') | None => [] end.
Lemma witness4 {A B C D} (f : node -> A) (g : node -> B) (h : node -> C) (k : node -> D) l x y z w :
  option_map (fun s => (f s, g s, h s, k s)) (run fuel0 l new_node) = Some (x, y, z, w) ->
  exists s, reachable s /\ f s = x /\ g s = y /\ h s = z /\ k s = w.
Proof.
  destruct (run fuel0 l new_node) as [s|] eqn:E; [|discriminate]. intro H. injection H as H1 H2 H3 H4.
  exists s. split; [now exists fuel0, l|]. auto.
Qed.
Ltac observe4 f g h k l := let v := eval vm_compute in (option_map (fun s => (f s, g s, h s, k s)) (run fuel0 l new_node)) in
  match v with Some (?x, ?y, ?z, ?w) =>
    let s := fresh "s" in let R := fresh "R" in let E1 := fresh "E1" in let E2 := fresh "E2" in let E3 := fresh "E3" in let E4 := fresh "E4" in
    destruct (witness4 f g h k l x y z w) as (s & R & E1 & E2 & E3 & E4); [vm_compute; reflexivity|] end.
Definition busy0 (s : node) := (nst s, map (fun p => e_id (snd p)) (routes s), pend s).
Example C76_case : exists s, reachable s /\ nst s = NRunning /\ map (fun p => e_id (snd p)) (routes s) = [65540] /\ pend s = [4] /\
  reachable (reset s) /\ (forall id x, ~ In (EInit id x) late) /\ late_log s = reset_log s.
Proof.
  observe4 busy0 (fun s : node => log s) reset_log late_log (boot 65540 [] ++ [EConnect adr2]).
  unfold busy0 in E1. injection E1 as A1 A2 A3.
  exists s. split; [exact R|]. split; [exact A1|]. split; [exact A2|]. split; [exact A3|]. split; [|split].
  - now apply reachable_reset.
  - intros id x X. cbn [late In] in X. intuition discriminate.
  - exact (eq_trans E4 (eq_sym E3)).
Qed.
(** What is not so: that nothing new happens once the reset has begun.  A connect that is still
    pending is first reported invalid; it then completes, the connection is announced as new and
    a registration is sent over it, all after the reset has removed the other nodes. *)
Theorem C76_during_refuted : exists s c m n l, reachable s /\
  reset_log s = TReset :: TClose c :: TSend c m n 0%Z :: TNew c :: l /\ In (TInvalid c) l /\ (exists e, In (TRemoved e) l) /\
  In TBegin l /\ ~ In TBegin (log s).
Proof.
  observe4 busy0 (fun s : node => log s) reset_log busy0 (boot 65540 [] ++ [EConnect adr2]).
  exists s. do 4 eexists. split; [exact R|]. split; [exact E3|].
  split; [cbn [In]; auto 8|]. split; [exists 2; cbn [In]; auto 8|]. split; [cbn [In]; auto 10|]. rewrite E2. cbn [In]. intuition discriminate.
Qed.

Print Assumptions C76_reset.
Print Assumptions C76_inert.
Print Assumptions C76_answers.
Print Assumptions C76_during_refuted.
