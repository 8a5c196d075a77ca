(** Ping rounds of the parent: a silent parent is given up (C36). *)
From Verif Require Import Base Subnet Route RouteProof Address NodeTypes NodeConn NodeCore NodeMsg Node
  NodeFrame NodeReset NodeInv NodeKeep NodeSteps NodeCtx NodeReach NodeSpec NodeLog NodeNotice NodeRoute NodeAuth NodeTime NodePing NodeWeary
  NodeDead NodeExample PropNodePing PropNodeDead PropParent NodeInert NodeCalm.
Local Open Scope N_scope.
Ltac Zify.zify_post_hook ::= idtac.

(** ** A fault of the parent *)
Record pready (e : N) (s : node) : Prop := {
  PR_inv : Inv s;
  PR_parent : exists p, parent s = Some p /\ e_ref p = e;
  PR_id : my_id s <> 0 }.
Lemma pready_ep e s : pready e s -> 0 < e < nexte s /\ parent s = Some (d_ep (es s e)).
Proof.
  intros [I (p & P & <-) _]. assert (A : alive s p) by (apply (I_tab s I); right; now left). destruct A as [A B]. now rewrite B.
Qed.
Lemma pready_same e s s' : Inv s' -> parent s' = parent s -> self s' = self s -> pready e s -> pready e s'.
Proof. intros I P S [_ A B]. constructor; [exact I|now rewrite P|]. unfold my_id in *. now rewrite S. Qed.
Lemma parent_fault e s : pready e s ->
  (snd (ep_fault e s) = true -> gone e (fst (ep_fault e s))) /\
  (snd (ep_fault e s) = false -> pready e (fst (ep_fault e s)) /\ worn e s (fst (ep_fault e s)) /\ d_ping (es (fst (ep_fault e s)) e) = d_ping (es s e)).
Proof.
  intro Y. pose proof (st_ep_fault true e s (PR_inv e s Y)) as ST. apply steps_Inv in ST; [|apply Y]. destruct (pready_ep e s Y) as [_ P].
  revert ST. unfold ep_fault. cbv zeta. set (s0 := on_e e _ s). set (s1 := emit _ s0).
  assert (F : es s1 e = set_d_fault (d_fault (es s e) + 1) (es s e)) by (change (es s1) with (es s0); subst s0; now rewrite es_on_e, N.eqb_refl).
  assert (C : cf s1 = cf s) by reflexivity. assert (P1 : parent s1 = parent s) by reflexivity. assert (E1 : self s1 = self s) by reflexivity.
  clearbody s1. clear s0.
  destruct (N.ltb_spec (x_tol (cf s1)) (d_fault (es s1 e))) as [X|X]; cbn [fst snd]; intro ST; (split; [|discriminate]) || (split; [discriminate|]); intros _.
  - unfold remove_endpoint, is_parent. assert (M : my_id s1 =? 0 = false) by (apply N.eqb_neq; unfold my_id; rewrite E1; exact (PR_id e s Y)).
    rewrite M, P1, P, F. cbn [d_ep set_d_fault]. rewrite N.eqb_refl. cbv zeta. set (s2 := emit _ _).
    assert (G : gone e s2).
    { left. destruct (PR_parent e s Y) as (p & Q & <-). rewrite Q in P. injection P as P. now rewrite <- P. }
    clearbody s2. destruct (fl_act s2); [exact G|]. cbn [fst]. apply (gone_longer e s2); [|exact G].
    unfold fatal_shutdown, shutdown. destruct (fl_shut s2); [apply longer_refl|]. cbv zeta. destruct (fl_act _); [now eexists [_]|now apply longer_same].
  - split; [now apply (pready_same e s)|]. rewrite F in *. cbn [d_fault d_ping set_d_fault] in *. split; [|reflexivity].
    right. split; [exact C|]. rewrite F. unfold patience. cbn [d_fault d_ping set_d_fault]. rewrite C in X. split; [|auto]. destruct (_ =? 0); lia.
Qed.
Lemma parent_drop e s : pready e s ->
  worn e s (fst (fault_drop false e s)) /\ (snd (fault_drop false e s) = true -> gone e (fst (fault_drop false e s))) /\
  (snd (fault_drop false e s) = false -> pready e (fst (fault_drop false e s)) /\ d_ping (es (fst (fault_drop false e s)) e) = d_ping (es s e)).
Proof.
  intro Y. destruct (parent_fault e s Y) as [A B]. pose proof (st_fault_drop true false e s (PR_inv e s Y) (proj1 (pready_ep e s Y))) as ST.
  pose proof (st_ep_fault true e s (PR_inv e s Y)) as S1. pose proof (steps_grow _ _ _ (PR_inv e s Y) S1) as GR.
  unfold fault_drop in *. destruct (ep_fault e s) as [s1 g]. cbn [fst snd negb] in *. destruct g; cbn [andb].
  - assert (G : gone e (ep_drop e s1)).
    { apply (gone_longer e s1); [|now apply A]. apply (steps_longer true). apply st_drop_ep. eapply carry_e; [exact GR|apply (pready_ep e s Y)]. }
    split; [now left|]. split; [trivial|discriminate].
  - destruct (B eq_refl) as (B1 & B2 & B3). split; [exact B2|]. split; [discriminate|]. auto.
Qed.
(** One ping of the parent. *)
Lemma parent_ping e s : pready e s -> worn e s (fst (ping_endpoint false e s)).
Proof.
  intro Y. unfold ping_endpoint.
  set (d0 := d_ping (es s e)). assert (D0 : d_ping (es s e) = d0) by reflexivity.
  assert (H : worn e s (fst (if d0 =? 0 then (s, false) else fault_drop false e s)) /\ d0 <> 0 \/
              fst (if d0 =? 0 then (s, false) else fault_drop false e s) = s /\ d0 = 0).
  { destruct (N.eqb_spec d0 0) as [Z|Z]; [now right|]. left. split; [now apply parent_drop|exact Z]. }
  assert (Y1 : snd (if d0 =? 0 then (s, false) else fault_drop false e s) = false -> pready e (fst (if d0 =? 0 then (s, false) else fault_drop false e s)) /\
     d_ping (es (fst (if d0 =? 0 then (s, false) else fault_drop false e s)) e) = d0).
  { destruct (d0 =? 0); [now split|]. intro X. now apply parent_drop in X. }
  assert (G : snd (if d0 =? 0 then (s, false) else fault_drop false e s) = true -> gone e (fst (if d0 =? 0 then (s, false) else fault_drop false e s))).
  { destruct (d0 =? 0); [discriminate|]. now apply parent_drop. }
  destruct (if d0 =? 0 then (s, false) else fault_drop false e s) as [s1 g]. cbn [fst snd] in *.
  destruct g; [left; now apply G|]. clear G. destruct (Y1 eq_refl) as [Y2 Z1]. clear Y1. clear D0.
  assert (H1 : forall u, longer s1 u -> worn e s1 u -> worn e s u).
  { intros u L W. destruct H as [[H _]|[-> _]]; [|exact W]. eapply worn_trans; eauto. }
  assert (SE : self s1 <> None) by (intro X; apply (PR_id e s1 Y2); unfold my_id; now rewrite X).
  destruct (self s1) as [m|] eqn:SE1; [|now elim SE]. assert (MI := PR_id e s1 Y2). apply N.eqb_neq in MI. rewrite MI.
  assert (RG : forall u, pready e u -> 0 < e < nexte u) by (intros u U; apply (pready_ep e u U)).
  assert (LD : forall u, pready e u -> longer u (fst (fault_drop false e u))).
  { intros u U. apply (steps_longer true). apply st_fault_drop; [apply U|now apply RG]. }
  destruct (ctrl_conn s1 _) as [c|].
  2: { cbn [fst]. apply H1; [now apply LD|now apply parent_drop]. }
  pose proof (seq_pos s1) as Q.
  assert (S2 : steps false s1 (fst (alloc_seq s1))) by eauto with st.
  assert (E2 : es (fst (alloc_seq s1)) = es s1 /\ self (fst (alloc_seq s1)) = self s1 /\ parent (fst (alloc_seq s1)) = parent s1 /\ cf (fst (alloc_seq s1)) = cf s1) by (repeat split).
  destruct (alloc_seq s1) as [s2 q]. cbn [fst snd] in *. destruct E2 as (E2 & E2' & E2'' & E2c).
  pose proof (steps_Inv _ _ _ S2 (PR_inv e s1 Y2)) as I2.
  assert (S3 : steps false s2 (fst (send_ping c q s2))) by eauto with st.
  assert (E3 : es (fst (send_ping c q s2)) = es s2 /\ self (fst (send_ping c q s2)) = self s2 /\ parent (fst (send_ping c q s2)) = parent s2 /\ cf (fst (send_ping c q s2)) = cf s2).
  { unfold send_ping. repeat split; fr1. }
  destruct (send_ping c q s2) as [s3 r]. cbn [fst] in *. destruct E3 as (E3 & E3' & E3'' & E3c).
  assert (Y3 : pready e s3).
  { apply (pready_same e s1); [eapply steps_Inv; eauto|congruence|congruence|exact Y2]. }
  assert (K3 : kept e s1 s3) by (apply kept_es; [congruence|now rewrite E3, E2]).
  assert (L3 : longer s1 s3) by (eapply longer_trans; eapply steps_longer; eauto).
  destruct (r <? 0)%Z.
  { cbn [fst]. apply H1; [eapply longer_trans; [exact L3|now apply LD]|]. eapply kept_worn; [now apply LD|exact K3|now apply parent_drop]. }
  cbv zeta. cbn [fst].
  match goal with |- worn e s (on_e e _ ?t) => set (s4 := t) end.
  assert (H4 : longer s3 s4 /\ (s4 = s3 \/ worn e s3 s4)).
  { subst s4. destruct (data_conn _ _ _); [split; [apply longer_refl|now left]|].
    destruct (parent_fault e s3 Y3) as [A B]. pose proof (st_ep_fault true e s3 (PR_inv e s3 Y3)) as S4.
    pose proof (steps_grow _ _ _ (PR_inv e s3 Y3) S4) as GR. apply steps_longer in S4. pose proof (RG s3 Y3) as R3.
    destruct (ep_fault e s3) as [s5 g]. cbn [fst snd negb] in *. destruct g; cbn [andb].
    - specialize (A eq_refl).
      assert (X : longer s5 (if negb (ep_held s5 e) then emit (TUb UFreed) (ep_drop e s5) else s5)).
      { destruct (negb _); [|apply longer_refl]. eapply longer_trans; [|now eexists [_]]. apply (steps_longer true), st_drop_ep. now apply (carry_e s3). }
      split; [eapply longer_trans; eauto|]. right. left. now apply (gone_longer e s5).
    - split; [exact S4|]. right. now apply B. }
  clearbody s4. destruct H4 as [L5 H4].
  assert (P : forall t, longer t (on_e e (set_d_ping q) t)) by (intro t; now exists []).
  assert (PW : forall t, d_fault (es (on_e e (set_d_ping q) t) e) = d_fault (es t e) /\ d_ping (es (on_e e (set_d_ping q) t) e) = q)
    by (intro t; rewrite es_on_e, N.eqb_refl; auto).
  assert (SET : forall t u, worn e t u -> worn e t (on_e e (set_d_ping q) u)).
  { intros t u [X|(X1 & X2 & X3)]; [left; apply (gone_longer e u); auto|]. destruct (PW u) as [U1 U2].
    right. split; [exact X1|]. unfold patience in *. rewrite U1, U2. apply N.eqb_neq in Q. rewrite Q. split; [|exact X3]. destruct (d_ping (es u e) =? 0); lia. }
  destruct H4 as [->|W4].
  - destruct H as [[H _]|[-> Z]].
    + apply SET. eapply worn_kept; [exact L3|exact H|exact K3].
    + eapply kept_worn; [apply P|exact K3|]. destruct (PW s3) as [U1 U2]. right. split; [reflexivity|]. unfold patience. rewrite U1, U2.
      assert (Z3 : d_ping (es s3 e) = 0) by (rewrite E3, E2; congruence). rewrite Z3. apply N.eqb_neq in Q. rewrite Q. rewrite N.eqb_refl.
      split; [lia|auto].
  - apply SET. apply H1; [eapply longer_trans; eauto|]. eapply kept_worn; eauto.
Qed.

(** ** Rounds of the parent *)
(** The state in which [proc] looks at the parent timer, when nothing is received. *)
Definition swept (now : N) (s : node) : node :=
  let s1 := if sec s <? now then set_sec now s else s in sweep (length (connecting s1)) now s1.
(** At time [now] a call of [proc] that receives nothing pings the parent [e]: the node runs
    and has an id and the address of a parent, the parent timer is due, the parent has a control
    connection and is not idle (see C37). *)
Record parent_round (e now : N) (s : node) : Prop := {
  V_run : nst s <> NCreated;
  V_up : fl_shut s = false;
  V_id : my_id s <> 0;
  V_addr : x_parent (cf s) <> [];
  V_due : 0 < popr (swept now s) < now;
  V_parent : exists p, parent (swept now s) = Some p /\ e_ref p = e /\ ctrl_conn (swept now s) p <> None;
  V_active : snd (idle_out now e (swept now s)) = false }.
(** A history of calls during which nothing arrives from [e], with [k] pings of the parent [e]. *)
Inductive unheard_parent (e : N) : N -> node -> node -> Prop :=
| up_nil s : unheard_parent e 0 s s
| up_call n ev k s s1 s2 : step n ev s = Some s1 -> unheard e ev s s1 -> unheard_parent e k s1 s2 -> unheard_parent e k s s2
| up_round n now k s s1 s2 : step n (EProc now []) s = Some s1 -> parent_round e now s ->
    unheard_parent e k s1 s2 -> unheard_parent e (k + 1) s s2.
Lemma up_does e k s s' : unheard_parent e k s s' -> good s -> does true s s'.
Proof.
  induction 1 as [s|n ev k s s1 s2 E U H IH|n now k s s1 s2 E R H IH]; intro G; [now apply does_refl| |].
  - assert (D : does true s s1) by (eapply does_step; [exact G| |exact E]; destruct ev; cbn; auto). eapply does_trans; [exact D|]. apply IH, D.
  - assert (D : does true s s1) by (eapply does_step; [exact G| |exact E]; cbn; auto). eapply does_trans; [exact D|]. apply IH, D.
Qed.
Lemma wr_swept e now s : wr e s (swept now s).
Proof.
  unfold swept. cbv zeta. eapply wr_trans; [|apply wr_sweep]. destruct (sec s <? now); [|apply wr_refl].
  split; [reflexivity|]. split; [apply N.le_refl|]. intros _. split; [apply N.le_refl|trivial].
Qed.
Lemma does_swept now s : good s -> does true s (swept now s).
Proof.
  intro G. unfold swept. cbv zeta. set (s1 := if sec s <? now then set_sec now s else s).
  assert (D : does true s s1) by (unfold s1; destruct (N.ltb_spec (sec s) now); [apply does_sec; [exact G|lia]|now apply does_refl]).
  eapply does_trans; [exact D|]. apply good_of in D. eapply (does_steps true true); [exact D|apply st_sweep, D|apply kc_sweep].
Qed.
Lemma self_swept now s : self (swept now s) = self s /\ cf (swept now s) = cf s.
Proof.
  unfold swept. cbv zeta. set (s1 := if sec s <? now then set_sec now s else s).
  assert (E : self s1 = self s /\ cf s1 = cf s) by (unfold s1; now destruct (sec s <? now)). destruct E as [<- <-].
  split; [apply (C_self _ _ (kc_sweep _ _ _))|apply (C_cf _ _ (kc_sweep _ _ _))].
Qed.
Lemma parent_op_worn e now s : good s -> parent_round e now s -> worn e (swept now s) (parent_op now (swept now s)).
Proof.
  intros G R. destruct (self_swept now s) as [SE CF]. pose proof (does_swept now s G) as D. apply good_of in D.
  destruct R as [_ _ R3 R4 R5 (p & R6 & R7 & R8) R9]. set (a := swept now s) in *. clearbody a.
  assert (M : my_id a <> 0) by (unfold my_id; rewrite SE; exact R3).
  assert (Y : pready e a) by (constructor; [apply D|eauto|exact M]). destruct (pready_ep e a Y) as [RG _].
  unfold parent_op. apply N.eqb_neq in M. rewrite M. rewrite CF. assert (B : bytes_eqb (x_parent (cf s)) [] = false) by (now destruct (x_parent (cf s))).
  rewrite B. assert (P0 : popr a =? 0 = false) by (apply N.eqb_neq; lia). assert (P1 : popr a <? now = true) by (apply N.ltb_lt; lia).
  rewrite P0, P1. cbn [negb andb]. rewrite R6. destruct (ctrl_conn a p) as [c|]; [|now elim R8]. rewrite R7.
  assert (ST : steps true a (fst (idle_out now e a))) by (apply st_idle_out, D).
  pose proof (steps_Inv _ _ _ ST (proj1 D)) as I1. pose proof (es_idle_out now e a e) as [F1 F2]. pose proof (parent_idle_out now e a) as P2.
  assert (SE1 : self (fst (idle_out now e a)) = self a /\ cf (fst (idle_out now e a)) = cf a) by (split; [apply C_self|apply C_cf]; apply kc_idle_out).
  destruct SE1 as [SE1 CF1].
  destruct (idle_out now e a) as [u out]. cbn [fst snd] in *. subst out.
  assert (YU : pready e u) by (now apply (pready_same e a)).
  pose proof (parent_ping e u YU) as W. set (v := fst (ping_endpoint false e u)) in *.
  assert (LV : longer u v) by (apply (steps_longer true), st_ping_endpoint; [exact I1|apply (pready_ep e u YU)]). clearbody v.
  eapply kept_worn; [|right; split; [exact CF1|]; split; [exact F1|exact F2]|].
  - eapply longer_trans; [exact LV|]. now apply longer_same.
  - eapply worn_kept; [|exact W|now apply kept_es]. now apply longer_same.
Qed.
Lemma round_fault e now s : calm s -> parent_round e now s -> d_fault (es (swept now s) e) <= x_tol (cf s).
Proof.
  intros C R. destruct (self_swept now s) as [SE CF]. rewrite <- CF. destruct (V_parent _ _ _ R) as (p & P & <- & _).
  assert (K : kb s (swept now s)).
  { unfold swept. cbv zeta. eapply kb_trans; [|apply kb_sweep]. destruct (sec s <? now); [apply kb_set_sec|apply kb_refl]. }
  apply (K C); [|exact P]. unfold my_id in *. rewrite SE. exact (V_id _ _ _ R).
Qed.
Lemma up_patience e k s s' : unheard_parent e k s s' -> good s -> sound s -> calm s -> In (TAdded e) (log s) ->
  gone e s' \/ (patience (x_tol (cf s')) (es s' e) + k <= patience (x_tol (cf s)) (es s e) /\
                (0 < k -> k + 1 <= patience (x_tol (cf s)) (es s e))).
Proof.
  induction 1 as [s|n ev k s s1 s2 E U H IH|n now k s s1 s2 E R H IH]; intros G SO CA A.
  - right. split; [lia|]. intro L. lia.
  - assert (D : does true s s1) by (eapply does_step; [exact G| |exact E]; destruct ev; cbn; auto).
    pose proof (does_longer _ _ _ (proj1 G) D) as L.
    assert (P := wr_patience e s s1 (wr_step e n ev s s1 E U) (proj2 (added_range e s SO A))).
    destruct IH as [X|[X Y]]; [apply D|eapply sound_does; eauto|eapply kb_step; [|exact E|exact CA]; intros i x ->; exact U|eapply in_longer; eauto|now left|].
    right. split; [lia|]. intro K. specialize (Y K). lia.
  - assert (D : does true s s1) by (eapply does_step; [exact G| |exact E]; cbn; auto).
    pose proof (does_longer _ _ _ (proj1 G) D) as L. pose proof (up_does _ _ _ _ H (proj2 D)) as D2.
    pose proof (sound_does s s1 SO D) as S1.
    assert (A1 : In (TAdded e) (log s1)) by (eapply in_longer; [exact L|exact A]).
    destruct (before_good now [] s G (V_run _ _ _ R)) as [GB W].
    pose proof (parent_op_worn e now s G R) as WO.
    assert (C1 : calm s1) by (eapply kb_step; [|exact E|exact CA]; intros i x X; discriminate X).
    pose proof (round_fault e now s CA R) as VF.
    unfold step, step_ret in E. destruct (proc n now [] s) as [s0|] eqn:PR; cbn [option_map fst] in E; [|discriminate]. injection E as ->.
    rewrite proc_before in PR by apply R. change (before_pings now [] s) with (parent_op now (swept now s)) in PR, GB, W.
    pose proof (wr_swept e now s) as WS. pose proof (does_swept now s G) as DS. destruct (self_swept now s) as [_ CF].
    set (a := swept now s) in *. clearbody a. set (b := parent_op now a) in *.
    assert (DB : does true a b) by (eapply (does_steps true true); [apply DS|apply st_parent_op, DS|apply kc_parent_op]). clearbody b.
    destruct (ping_loop n now None b) as [s5|] eqn:PL; [|discriminate]. injection PR as E1.
    assert (D5 : does true b s5).
    { eapply (does_steps true true); [exact GB| |eapply kc_ping_loop; exact PL].
      apply (st_ping_loop true now n None b s5); [apply GB|exact W|intros ? X; discriminate X|exact PL]. }
    pose proof (does_round true s5 (proj2 D5)) as D6. rewrite E1 in D6.
    assert (W6 : wr e b s1).
    { eapply wr_trans; [eapply wr_ping_loop; exact PL|]. rewrite <- E1. eapply wr_trans; [apply wr_dispatch_self|].
      eapply wr_trans; [apply wr_collect|]. apply wr_stop. }
    assert (LB : longer b s1) by (eapply does_longer; [apply GB|eapply does_trans; eauto]).
    assert (L2 : longer s1 s2) by (eapply does_longer; [apply D|exact D2]).
    pose proof (sound_does s a SO DS) as SA. pose proof (sound_does a b SA DB) as SB.
    assert (AA : In (TAdded e) (log a)) by (eapply in_longer; [eapply does_longer; [apply G|exact DS]|exact A]).
    assert (AB : In (TAdded e) (log b)) by (eapply in_longer; [eapply does_longer; [apply DS|exact DB]|exact AA]).
    pose proof (worn_bowed e a b s1 LB W6 (proj2 (added_range e b SB AB)) WO) as BO.
    destruct BO as [BO|[B1 B2]]; [left; now apply (gone_longer e s1)|].
    assert (P0 := wr_patience e s a WS (proj2 (added_range e s SO A))). rewrite CF in *.
    destruct IH as [X|[X Z]]; trivial; [apply D|now left|].
    right. split; [lia|]. intros _. specialize (B2 VF). destruct (N.eq_dec k 0) as [->|K]; [lia|]. specialize (Z ltac:(lia)). lia.
Qed.

(** In no reachable state has the parent more faults than are tolerated. *)
Lemma calm_init i x s : good s -> (nst s = NCreated -> asleep s) -> calm (fst (init i x s)).
Proof.
  intros G W _ p. assert (N : parent (match nst s with NCreated => s | _ => reset s end) = None).
  { destruct (nst s) eqn:E; [now apply Z_parent, W|..]; now apply Z_parent, asleep_reset. }
  unfold init. set (s0 := match nst s with NCreated => s | _ => reset s end) in *. clearbody s0. cbv zeta.
  destruct (endpoint_subnets _ _); [|intro X; cbn in X; congruence].
  assert (E : parent (fst (ep_create i l (x_pid x) (x_host x) (set_cf x s0))) = None) by (rewrite <- N; fr1).
  change (self (set_cf x s0)) with (self s0). destruct (ep_create _ _ _ _ _) as [s1 e]. cbn [fst] in *. intro X.
  assert (Y : parent (clear_ping (e_ref e) match self s0 with Some o => ep_drop (e_ref o) (set_self (Some e) s1) | None => set_self (Some e) s1 end) = parent s1).
  { assert (Y1 : forall r u, parent (clear_ping r u) = parent u) by (intros; fr1). assert (Y2 : forall r u, parent (ep_drop r u) = parent u) by (intros; fr1).
    rewrite Y1. destruct (self s0); [now rewrite Y2|reflexivity]. }
  change (parent (clear_ping (e_ref e) match self s0 with Some o => ep_drop (e_ref o) (set_self (Some e) s1) | None => set_self (Some e) s1 end) = Some p) in X.
  congruence.
Qed.
Lemma reachable_calm s : reachable s -> calm s.
Proof.
  intros (n & evs & R). assert (P : exists pre, run n pre new_node = Some new_node) by (now exists []).
  assert (C : calm new_node) by (intros _ p X; discriminate X). revert P C R. generalize new_node at 2 3 4.
  induction evs as [|ev r IH]; intros u P C; cbn [run]; [now intros [= <-]|].
  destruct (step n ev u) as [u1|] eqn:S; [|discriminate]. destruct P as [pre P]. apply IH.
  - exists (pre ++ [ev]). clear IH C. revert P. generalize new_node. induction pre as [|ev' pre IH]; intros v P; cbn [app run] in *.
    + injection P as ->. now rewrite S.
    + destruct (step n ev' v); [|discriminate]. now apply IH.
  - assert (RU : reachable u) by (now exists n, pre).
    destruct ev as [i x| | | | | | | | | | | | |]; try (eapply kb_step; [|exact S|exact C]; intros ? ? X; discriminate X).
    cbn [step step_ret option_map] in S. injection S as <-. apply calm_init; [now apply reachable_good|now apply reachable_asleep].
Qed.

(** A parent from which nothing arrives is given up, and the application notified, after at most
    [fault_tolerant + 2] of its pings. *)
Theorem C36_silent_parent e k s s' : reachable s -> In (TAdded e) (log s) -> unheard_parent e k s s' ->
  x_tol (cf s) + 2 <= k -> In (TRemoved e) (log s').
Proof.
  intros R A H K. destruct (up_patience _ _ _ _ H (reachable_good s R) (reachable_sound s R) (reachable_calm s R) A) as [X|[_ X]]; [exact X|].
  pose proof (patience_max (x_tol (cf s)) (es s e)). specialize (X ltac:(lia)). lia.
Qed.
(** Another node from which nothing arrives, whatever its fault counter is when a round starts, is
    pinged at most [fault_tolerant + 2] times before it is given up. *)
Theorem C36_silent_bound e k s s' : reachable s -> In (TAdded e) (log s) -> hush e false k s s' -> settled s' ->
  ~ In (TRemoved e) (log s') -> k <= x_tol (cf s) + 2.
Proof.
  intros R A H S K. pose proof (patience_max (x_tol (cf s)) (es s e)).
  destruct (hush_patience _ _ _ _ _ H (reachable_good s R) (reachable_sound s R) S A) as [X|[X _]]; [now elim K|]. lia.
Qed.

(** ** A case *)
Definition parent_round_b (e now : N) (s : node) : bool :=
  let a := swept now s in
  negb (match nst s with NCreated => true | _ => false end) && negb (fl_shut s) && negb (my_id s =? 0) &&
  negb (bytes_eqb (x_parent (cf s)) []) && (0 <? popr a) && (popr a <? now) &&
  (match parent a with Some p => (e_ref p =? e) && (match ctrl_conn a p with Some _ => true | None => false end) | None => false end) &&
  negb (snd (idle_out now e a)).
Lemma parent_round_b_ok e now s : parent_round_b e now s = true -> parent_round e now s.
Proof.
  unfold parent_round_b. cbv zeta. set (a := swept now s). rewrite !andb_true_iff, !negb_true_iff.
  intros (((((((H1 & H2) & H3) & H4) & H5) & H6) & H7) & H8). constructor; fold a.
  - intro X. now rewrite X in H1.
  - exact H2.
  - now apply N.eqb_neq.
  - intro X. now rewrite X in H4.
  - split; now apply N.ltb_lt.
  - destruct (parent a) as [p|]; [|discriminate]. exists p. split; [reflexivity|]. apply andb_true_iff in H7 as [H7 H]. split; [now apply N.eqb_eq|].
    intro X. now rewrite X in H.
  - exact H8.
Qed.
Fixpoint parent_rounds_b (e : N) (ts : list N) (s : node) : bool :=
  match ts with
  | [] => true
  | t :: r => parent_round_b e t s && match step fuel0 (EProc t []) s with Some s' => parent_rounds_b e r s' | None => false end
  end.
Lemma parent_rounds_b_ok e ts : forall s, parent_rounds_b e ts s = true ->
  exists s', run fuel0 (map (fun t => EProc t []) ts) s = Some s' /\ unheard_parent e (N.of_nat (length ts)) s s'.
Proof.
  induction ts as [|t r IH]; intros s H; cbn [parent_rounds_b] in H.
  - exists s. split; [reflexivity|constructor].
  - apply andb_true_iff in H as [H1 H2]. destruct (step fuel0 (EProc t []) s) as [s1|] eqn:E; [|discriminate].
    destruct (IH s1 H2) as (s' & R & HU). exists s'. split; [cbn [map run]; rewrite E; exact R|].
    replace (N.of_nat (length (t :: r))) with (N.of_nat (length r) + 1) by (cbn [length]; lia).
    apply parent_round_b_ok in H1. apply (up_round e fuel0 t _ s s1 s'); auto.
Qed.
(** The parent has accepted the node and has a data connection; pings at 109, 118, 127 and 136
    remain unanswered, with [fault_tolerant = 2]. *)
Definition with_parent : list event := up0 ++ EStart 100 :: up1 ++ [EIo (IConnected 2 0)].
Example C36_silent_parent_case : exists s s', reachable s /\ In (TAdded 2) (log s) /\ ~ In (TRemoved 2) (log s) /\
  option_map e_ref (parent s) = Some 2 /\ unheard_parent 2 4 s s' /\ x_tol (cf s) + 2 <= 4 /\
  parent s' = None /\ nst s' = NLost.
Proof.
  observe (fun s => (parent_rounds_b 2 [109;118;127;136] s, log s, x_tol (cf s), option_map e_ref (parent s),
    option_map (fun s' => (parent s', nst s')) (run fuel0 (map (fun t => EProc t []) [109;118;127;136]) s))) with_parent.
  pose proof (f_equal snd E) as E5. pose proof (f_equal (fun x => snd (fst x)) E) as E4. pose proof (f_equal (fun x => snd (fst (fst x))) E) as E3.
  pose proof (f_equal (fun x => snd (fst (fst (fst x)))) E) as E2.
  pose proof (f_equal (fun x => fst (fst (fst (fst x)))) E) as E1. cbn [fst snd] in E1, E2, E3, E4, E5. clear E.
  destruct (parent_rounds_b_ok 2 [109;118;127;136] s E1) as (s' & RU & H). rewrite RU in E5. cbn [option_map] in E5. injection E5 as E5 E6.
  exists s, s'. split; [exact R|]. rewrite E2, E3, E4, E5, E6. split; [cbn [In]; tauto|]. split; [cbn [In]; intuition discriminate|].
  split; [reflexivity|]. split; [exact H|]. split; [lia|]. split; reflexivity.
Qed.
(** Three rounds of the other example: the silent node is still there, with two faults. *)
Lemma hush_loose e strict k s s' : hush e strict k s s' -> hush e false k s s'.
Proof.
  induction 1 as [s|n ev k s s1 s2 E U H IH|n now k s s1 s2 E R F H IH]; [constructor|now apply (hush_call e false n ev k s s1 s2)|].
  apply (hush_round e false n now k s s1 s2); trivial. discriminate.
Qed.
Example C36_silent_bound_case : exists s s', reachable s /\ In (TAdded 2) (log s) /\ hush 2 false 3 s s' /\ settled s' /\
  ~ In (TRemoved 2) (log s') /\ d_fault (es s' 2) = 2 /\ x_tol (cf s) = 2.
Proof.
  observe (fun s => (rounds_b 2 [109;118;127] s, log s, x_tol (cf s),
    option_map (fun s' => (flat_map (fun t => match t with TAdded e => [e] | _ => [] end) (log s'), d_ep (es s' 2),
      existsb (fun t => match t with TRemoved _ => true | _ => false end) (log s'), d_fault (es s' 2)))
      (run fuel0 (map (fun t => EProc t []) [109;118;127]) s))) (boot 65540 []).
  pose proof (f_equal snd E) as E4. pose proof (f_equal (fun x => snd (fst x)) E) as E3. pose proof (f_equal (fun x => snd (fst (fst x))) E) as E2.
  pose proof (f_equal (fun x => fst (fst (fst x))) E) as E1. cbn [fst snd] in E1, E2, E3, E4. clear E.
  destruct (rounds_b_ok 2 [109;118;127] s E1) as (s' & RU & H). rewrite RU in E4. cbn [option_map] in E4. injection E4 as E4 E5 E6 E7.
  exists s, s'. split; [exact R|]. split; [rewrite E2; cbn [In]; tauto|]. split; [apply (hush_loose _ _ _ _ _ H)|]. split.
  - intros e IN. assert (e = 2) as ->.
    { assert (X : In e (flat_map (fun t => match t with TAdded e => [e] | _ => [] end) (log s'))) by (apply in_flat_map; exists (TAdded e); split; [exact IN|now left]).
      rewrite E4 in X. cbn [In] in X. intuition congruence. }
    rewrite E5. unfold good_ep. cbn [e_subs e_id].
    split; [repeat constructor; unfold RouteProof.good; cbn; lia|]. split; [repeat constructor|]. eexists. split; [now left|]. cbn. lia.
  - split; [|now split]. intro X. assert (Y : existsb (fun t => match t with TRemoved _ => true | _ => false end) (log s') = true)
      by (apply existsb_exists; exists (TRemoved 2); auto). congruence.
Qed.
Print Assumptions C36_silent_parent.
Print Assumptions C36_silent_bound.
