(** Properties of the ping loop. *)
From Coq Require Import Sorted.
From Verif Require Import Base Subnet Route Address NodeTypes NodeConn NodeCore NodeMsg Node
  NodeFrame NodeReset NodeInv NodeKeep NodeSteps NodeCtx NodeReach NodeSpec NodeLog NodeAuth NodeTime NodePing NodeExample.
Local Open Scope N_scope.
Ltac Zify.zify_post_hook ::= idtac.

(** ** C37: ping processing *)
(** The state in which a call of [proc] enters the ping loop. *)
Definition before_pings (now : N) (feed : list (N * list item)) (s : node) : node :=
  let s := if sec s <? now then set_sec now s else s in
  let s := fold_left proc_one feed s in
  parent_op now (sweep (length (connecting s)) now s).
Lemma before_good now feed s : good s -> nst s <> NCreated -> good (before_pings now feed s) /\ now <= sec (before_pings now feed s).
Proof.
  intros G C. unfold before_pings. cbv zeta. set (s1 := if sec s <? now then set_sec now s else s).
  assert (D : good s1 /\ now <= sec s1 /\ nst s1 = nst s).
  { subst s1. destruct (N.ltb_spec (sec s) now) as [L|L]; [|auto].
    split; [|split; [cbn; lia|reflexivity]]. apply (does_sec true now s G). lia. }
  destruct D as (D & W & C1). clearbody s1. rewrite <- C1 in C. clear C1 G s.
  assert (D1 : does true s1 (fold_left proc_one feed s1)).
  { eapply does_steps; [exact D|apply st_procs_all; [apply D|exact C]|]. apply kc_fold, kc_proc_one. }
  assert (W1 : now <= sec (fold_left proc_one feed s1)).
  { destruct (kc_fold proc_one kc_proc_one feed s1) as [_ _ E _]. now rewrite E. }
  set (s2 := fold_left proc_one feed s1) in *. clearbody s2. apply good_of in D1. set (k := length _). clearbody k.
  assert (D2 : does true s2 (sweep k now s2)) by (eapply (does_steps true true); [exact D1|apply st_sweep, D1|apply kc_sweep]).
  assert (W2 : now <= sec (sweep k now s2)) by (destruct (kc_sweep k now s2) as [_ _ E _]; now rewrite E).
  set (s3 := sweep k now s2) in *. clearbody s3. apply good_of in D2.
  assert (D3 : does true s3 (parent_op now s3)) by (eapply (does_steps true true); [exact D2|apply st_parent_op, D2|apply kc_parent_op]).
  split; [apply D3|]. destruct (kc_parent_op now s3) as [_ _ E _]. now rewrite E.
Qed.
Lemma proc_before n now feed s : nst s <> NCreated -> fl_shut s = false ->
  proc n now feed s = match ping_loop n now None (before_pings now feed s) with
                      | None => None
                      | Some s => Some (stop_if_shut (collect (fst (dispatch_self s))))
                      end.
Proof.
  intros C F. unfold proc, before_pings. cbv zeta. set (s1 := if sec s <? now then set_sec now s else s).
  assert (E : nst s1 = nst s /\ fl_shut s1 = fl_shut s) by (subst s1; destruct (sec s <? now); auto).
  destruct E as [E1 E2]. rewrite E1, E2, F. destruct (nst s); [now elim C|reflexivity..].
Qed.
(** [idle_ep now e s]: endpoint [e] was first looked at more than the configured time
    ago and is still without a usable data connection.  When no endpoint whose timer is
    due is idle, the loop looks at most once at each timer that is due, so that [proc]
    returns; when the timers are in order, none is due afterwards. *)
Theorem C37_terminates_partial now feed s : reachable s -> active now (before_pings now feed s) ->
  exists n s', proc n now feed s = Some s'.
Proof.
  intros R A. pose proof (reachable_good s R) as G.
  assert (C : nst s = NCreated \/ nst s <> NCreated) by (destruct (nst s); auto; right; discriminate).
  destruct C as [C|C].
  { exists 0%nat. unfold proc. cbv zeta. set (s1 := if sec s <? now then set_sec now s else s). exists s1.
    assert (E : nst s1 = NCreated) by (subst s1; destruct (sec s <? now); trivial). now rewrite E. }
  destruct (fl_shut s) eqn:F.
  { exists 0%nat. unfold proc. cbv zeta. set (s1 := if sec s <? now then set_sec now s else s).
    assert (E : nst s1 = nst s /\ fl_shut s1 = fl_shut s) by (subst s1; destruct (sec s <? now); auto).
    destruct E as [E1 E2]. rewrite E1, E2, F. destruct (nst s); [now elim C|eauto..]. }
  destruct (before_good now feed s G C) as [[I _] W].
  exists (S (due now (before_pings now feed s))). rewrite proc_before by assumption.
  destruct (ping_loop_ends now (S (due now (before_pings now feed s))) None (before_pings now feed s)) as (s' & E & _); trivial; try lia; [discriminate|].
  rewrite E. eauto.
Qed.
(** The number of rounds is at most one more than the number of due timers. *)
Theorem C37_rounds_partial now s : good s -> now <= sec s -> active now s ->
  exists s', ping_loop (S (due now s)) now None s = Some s' /\
    (StronglySorted N.le (map fst (pings s)) -> forall t e, In (t, e) (pings s') -> now < t).
Proof.
  intros [I _] W A. destruct (ping_loop_ends now (S (due now s)) None s) as (s' & E & Q); trivial; try lia; [discriminate|].
  exists s'. split; [exact E|]. intros S t e IN. specialize (Q (split_sorted now s S)). rewrite Forall_forall in Q. now apply (Q (t, e)).
Qed.
(** Whenever two timers are due and the first belongs to an idle endpoint, [proc] does
    not return, whatever the number of rounds. *)
Theorem C37_idle_hangs now feed s t a t2 b r : reachable s -> nst s <> NCreated -> fl_shut s = false ->
  pings (before_pings now feed s) = (t, a) :: (t2, b) :: r -> t <= now -> t2 <= now -> idle_ep now a (before_pings now feed s) ->
  forall n, proc n now feed s = None.
Proof.
  intros R C F P L L2 H n. destruct (before_good now feed s (reachable_good s R) C) as [[I _] W].
  rewrite proc_before by assumption. now rewrite (ping_loop_hangs now (before_pings now feed s) t a t2 b r n).
Qed.
(** Two children register without offering a channel; no data connection is made. *)
Definition regn id := {| r_id := id; r_pid := 9; r_host := [2]; r_chans := []; r_keys := []; r_nets := [] |}.
Definition two := [EInit 65536 cfg0; EStart 100; EListen adr; EIo (IAccepted adr2);
  EIo (IRecv 2 (RMsg 10 (msg0 65537 (BReg false (regn 65537))))); EIo (IAccepted adr2);
  EIo (IRecv 3 (RMsg 10 (msg0 65538 (BReg false (regn 65538))))); EProc 109 []].
Definition idle_b (now e : N) (s : node) : bool :=
  negb (is_available s e) && (0 <? d_created (es s e)) && (d_created (es s e) + x_first (cf s) <? now).
Lemma idle_b_ok now e s : idle_b now e s = true <-> idle_ep now e s.
Proof.
  unfold idle_b, idle_ep. rewrite !andb_true_iff, negb_true_iff, !N.ltb_lt. tauto.
Qed.
Theorem C37_proc_returns_refuted : exists s, reachable s /\ forall n, proc n 140 [] s = None.
Proof.
  observe (fun s => (nst s, fl_shut s, pings (before_pings 140 [] s), idle_b 140 2 (before_pings 140 [] s))) two.
  injection E as E1 E2 E3 E4. exists s. split; [exact R|].
  apply (C37_idle_hangs 140 [] s 117 2 117 3 []); trivial; try lia; [rewrite E1; discriminate|]. now apply idle_b_ok.
Qed.
(** At 138 neither is idle yet and both timers are due. *)
Example C37_case : exists s, reachable s /\ active 138 (before_pings 138 [] s) /\ due 138 (before_pings 138 [] s) = 2%nat /\
  StronglySorted N.le (map fst (pings (before_pings 138 [] s))).
Proof.
  observe (fun s => (pings (before_pings 138 [] s), map (fun e => idle_b 138 e (before_pings 138 [] s)) [2; 3])) two.
  injection E as E1 E2 E3. exists s. split; [exact R|]. unfold active, due. rewrite E1. split; [|split; [reflexivity|]].
  - intros t e IN L H. apply idle_b_ok in H. cbn in IN. destruct IN as [IN|[IN|[]]]; injection IN as <- <-; congruence.
  - cbn. repeat constructor; lia.
Qed.
Print Assumptions C37_terminates_partial.
Print Assumptions C37_rounds_partial.
Print Assumptions C37_idle_hangs.
Print Assumptions C37_proc_returns_refuted.
