(** The parent is contacted again and again: C64. *)
From Verif Require Import Base Subnet Route Address NodeTypes NodeConn NodeCore NodeMsg Node
  NodeFrame NodeReset NodeInv NodeKeep NodeSteps NodeCtx NodeReach NodeTime NodeParent NodeExample.
Local Open Scope N_scope.
Ltac Zify.zify_post_hook ::= idtac.

(** The longest of the three configured times. *)
Definition longest (x : cfg) : N := N.max (x_first x) (N.max (x_retry x) (x_ping x)).
(** Calls other than [init]. *)
Definition no_init (ev : event) : Prop := match ev with EInit _ _ => False | _ => True end.

(** The timer is set and not further away than that. *)
Record armed (s : node) : Prop := {
  A_sec : 0 < sec s; A_set : 0 < popr s; A_near : popr s <= sec s + longest (cf s) }.
Lemma armed_kt s s' : kt s s' -> armed s -> armed s'.
Proof.
  intros [C S P] [A1 A2 A3]. constructor; rewrite ?C, ?S; trivial; unfold longest in *; lia.
Qed.
Lemma armed_sec v s : sec s <= v -> armed s -> armed (set_sec v s).
Proof. intros L [A1 A2 A3]. constructor; cbn; trivial; lia. Qed.
Lemma armed_at now d s : armed s -> 0 < now <= sec s -> d <= longest (cf s) -> armed (set_popr (now + d) s).
Proof. intros [A1 A2 A3] N D. constructor; cbn; trivial; lia. Qed.
Lemma armed_nst v s : armed s -> armed (set_nst v s). Proof. intros []. now constructor. Qed.
Lemma armed_parent_op now s : now <= sec s -> armed s -> armed (parent_op now s).
Proof.
  intros L A. unfold parent_op. destruct (_ && _ && _ && _) eqn:B; [|exact A].
  apply andb_true_iff in B as [_ B]. apply N.ltb_lt in B.
  assert (N : 0 < now) by lia. clear B.
  assert (Q : forall s' d, kt s s' -> d <= longest (cf s') -> armed (set_popr (now + d) s')).
  { intros s' d K D. apply armed_at; [eapply armed_kt; eauto| |exact D]. rewrite (T_sec _ _ K). lia. }
  assert (CON : forall s0, s0 = (let (s1, r) := connect (x_parent (cf s)) s in
        if (r <? 0)%Z then set_popr (now + x_retry (cf s1)) s1
        else set_nst NConnecting (set_popr (now + x_first (cf s1)) s1)) -> armed s0).
  { intros s0 ->. pose proof (kt_connect (x_parent (cf s)) s) as K. destruct (connect _ s) as [s1 r]. cbn [fst] in K.
    destruct (r <? 0)%Z; [|apply armed_nst]; apply Q; trivial; unfold longest; lia. }
  destruct (match parent s with Some p => ctrl_conn s p | None => None end) as [c|]; [|now apply CON].
  destruct (parent s) as [p|]; [|now apply CON]. clear CON.
  pose proof (kt_idle_out now (e_ref p) s) as K. destruct (idle_out now (e_ref p) s) as [s1 out]. cbn [fst] in K.
  cbv zeta. set (s2 := if out then _ else _).
  assert (K2 : kt s s2) by (eapply kt_trans; [exact K|]; subst s2; destruct out; [apply kt_gc_ep|apply kt_ping_endpoint]).
  apply Q; [exact K2|unfold longest; lia].
Qed.

(** What [proc] does before it looks at the timer of the parent: the clock, the polled
    connections, the connections that ran out of time. *)
Definition earlier (now : N) (feed : list (N * list item)) (s : node) : node :=
  let s := fold_left proc_one feed (if sec s <? now then set_sec now s else s) in
  sweep (length (connecting s)) now s.
Lemma kt_earlier now feed s : kt (if sec s <? now then set_sec now s else s) (earlier now feed s).
Proof.
  unfold earlier. cbv zeta. eapply kt_trans; [apply (kt_fold proc_one), kt_proc_one|apply kt_sweep].
Qed.
Lemma armed_proc n now feed s s' : armed s -> proc n now feed s = Some s' -> armed s'.
Proof.
  intros A. assert (A1 : armed (if sec s <? now then set_sec now s else s)).
  { destruct (N.ltb_spec (sec s) now); [|exact A]. apply armed_sec; [lia|exact A]. }
  assert (W : now <= sec (if sec s <? now then set_sec now s else s)) by (destruct (N.ltb_spec (sec s) now); cbn; lia).
  unfold proc. cbv zeta. pose proof (kt_earlier now feed s) as K. unfold earlier in K. cbv zeta in K.
  set (s1 := if sec s <? now then _ else s) in *. clearbody s1.
  set (s2 := sweep _ now (fold_left proc_one feed s1)) in *. clearbody s2.
  assert (A2 := armed_kt _ _ K A1). assert (W2 : now <= sec s2) by (rewrite (T_sec _ _ K); exact W).
  pose proof (armed_parent_op _ _ W2 A2) as A3.
  assert (Z : fl_shut s1 = true -> armed (reset (fst (dispatch_self s1)))).
  { intros _. eapply armed_kt; [eapply kt_trans; [apply kt_dispatch_self|apply kt_reset]|exact A1]. }
  assert (Y : forall s5, ping_loop n now None (parent_op now s2) = Some s5 -> armed (stop_if_shut (collect (fst (dispatch_self s5))))).
  { intros s5 E. apply kt_ping_loop in E. eapply armed_kt; [|eapply armed_kt; [exact E|exact A3]].
    eapply kt_trans; [apply kt_dispatch_self|]. eapply kt_trans; [apply kt_collect|apply kt_stop_if_shut]. }
  destruct (nst s1); [intros [= <-]; exact A1|..];
    (destruct (fl_shut s1); [intros [= <-]; auto|]; destruct (ping_loop n now None (parent_op now s2)) as [s5|]; [|discriminate]; intros [= <-]; auto).
Qed.
Lemma armed_start now s : sec s <= now -> armed s -> armed (fst (start now s)).
Proof.
  intros L A. unfold start. assert (A1 := armed_sec now s L A).
  assert (Q : armed (fst (let s := set_sec now s in
      if negb (my_id s =? 0) && negb (bytes_eqb (x_parent (cf s)) [])
      then match parent s with
           | Some _ => (s, E_OK)
           | None =>
               let (s, r) := connect (x_parent (cf s)) s in
               if (0 <=? r)%Z
               then (set_nst NConnecting (set_popr (sec s + x_first (cf s)) s), E_OK)
               else (set_nst NLost (set_popr (sec s + x_retry (cf s)) s), E_OK)
           end
      else (on_actived s, E_OK)))); [|destruct (nst s); trivial].
  cbv zeta. destruct (_ && _); [|eapply armed_kt; [apply kt_on_actived|exact A1]].
  destruct (parent _); [exact A1|]. pose proof (kt_connect (x_parent (cf (set_sec now s))) (set_sec now s)) as K.
  destruct (connect _ _) as [s1 r]. cbn [fst] in K. pose proof (armed_kt _ _ K A1) as A2.
  destruct (0 <=? r)%Z; cbn [fst]; apply armed_nst, armed_at; trivial; try (split; [apply A2|lia]); unfold longest; lia.
Qed.
Lemma armed_step n ev s s' : no_init ev -> (forall now, ev = EStart now -> sec s <= now) -> armed s -> step n ev s = Some s' -> armed s'.
Proof.
  intros NI SE A. unfold step, step_ret.
  destruct ev as [i x|now|a|a|a i|i|to ty b w q|to l q|z| |now feed|l|i|o l]; cbn [option_map fst]; try contradiction;
    try (intros [= <-]; refine (armed_kt _ _ _ A); eauto with kt; fail).
  - intros [= <-]. apply armed_start; auto.
  - intros [= <-]. destruct (get_endpoint s i); [|exact A]. eapply armed_kt; [apply kt_connect_ep|exact A].
  - destruct (proc n now feed s) as [s1|] eqn:E; [|discriminate]. intros [= <-]. eapply armed_proc; eauto.
  - intros [= <-]. eapply armed_kt; [|exact A]. now apply kt_intro.
Qed.
Lemma armed_run n evs : forall t s s', Forall no_init evs -> sec s <= t -> steady t evs -> good s -> armed s ->
  run n evs s = Some s' -> armed s'.
Proof.
  induction evs as [|ev r IH]; intros t s s' F L S G A R; cbn [run] in R; [injection R as <-; exact A|].
  destruct (step n ev s) as [s1|] eqn:E; [|discriminate]. inversion F as [|? ? F1 F2]; subst.
  pose proof (sec_step _ _ _ _ G E) as SE.
  assert (SE' : sec s1 <= clock_after ev t) by (destruct ev; cbn in *; lia).
  assert (PU : punctual false ev s) by (destruct ev; cbn in *; auto; right; lia).
  pose proof (does_step false n ev s s1 G PU E) as D.
  eapply IH; [exact F2|exact SE'| |apply D| |exact R].
  - destruct ev; cbn in *; trivial. destruct S as [S1 S2]. now rewrite N.max_r.
  - eapply armed_step; [exact F1| |exact A|exact E]. intros now ->. cbn in S. lia.
Qed.

(** ** C64 *)
(** A node started with a parent, and what happened since: any calls but [init], with a
    clock that is not set back. *)
Record served (n : nat) (s : node) : Prop := {
  V_run : exists pre t post s0, run n pre new_node = Some s0 /\ steady 0 (pre ++ EStart t :: post) /\
    nst s0 <> NCreated /\ my_id s0 <> 0 /\ x_parent (cf s0) <> [] /\ parent s0 = None /\ 0 < t /\
    Forall no_init post /\ run n (EStart t :: post) s0 = Some s }.
Lemma bytes_nil a : bytes_eqb a [] = false <-> a <> [].
Proof. destruct a; cbn; split; congruence. Qed.
Lemma clock_app l1 : forall t l2, clock t (l1 ++ l2) = clock (clock t l1) l2.
Proof. induction l1 as [|ev l IH]; intros t l2; cbn; [reflexivity|]. apply IH. Qed.
Lemma steady_tail l1 : forall t l2, steady t (l1 ++ l2) -> steady (clock t l1) l2.
Proof.
  induction l1 as [|ev l IH]; intros t l2; cbn; [trivial|].
  destruct ev; cbn; try apply IH. intros [A B]. apply IH. now rewrite N.max_r.
Qed.
Lemma armed_served n s : served n s -> armed s.
Proof.
  intros [(pre & t & post & s0 & R0 & S & C & I & X & P & T & F & R)].
  pose proof (steady_app _ _ _ S) as S0. apply steady_tail in S. cbn [steady] in S. destruct S as [ST SP].
  destruct (steady_run n pre 0 new_node s0 good_new timed_new) as (G & TM & L); trivial; [cbn; lia|].
  cbn [run] in R. destruct (step n (EStart t) s0) as [s1|] eqn:E; [|discriminate].
  assert (PU : punctual false (EStart t) s0) by (cbn; right; lia).
  pose proof (does_step false n _ s0 s1 G PU E) as D. pose proof (sec_step _ _ _ _ G E) as SE. cbn in SE.
  eapply (armed_run n post t); [exact F| |exact SP|apply D| |exact R]; [lia|].
  unfold step, step_ret in E. cbn [option_map] in E. injection E as <-. unfold start.
  apply N.eqb_neq in I. apply bytes_nil in X. assert (I' : my_id (set_sec t s0) =? 0 = false) by exact I.
  destruct (nst s0); [now elim C|..]; cbv zeta; rewrite I'; cbn [cf set_sec negb]; rewrite X; cbn [negb andb parent set_sec];
    rewrite P; pose proof (kt_connect (x_parent (cf s0)) (set_sec t s0)) as K;
    destruct (connect _ (set_sec t s0)) as [s1 r]; cbn [fst] in *; destruct K as [K1 K2 _]; cbn in K1, K2;
    (destruct (0 <=? r)%Z; constructor; cbn; rewrite ?K1, ?K2; unfold longest; lia).
Qed.
(** The next contact is planned, no later than the longest of the configured times. *)
Theorem C64_planned n s : served n s -> 0 < popr s <= sec s + longest (cf s).
Proof. intro V. destruct (armed_served _ _ V). lia. Qed.

(** The parts of the state that a peer can notice. *)
Record alike (s s' : node) : Prop := {
  L_cs : cs s' = cs s; L_connecting : connecting s' = connecting s; L_pend : pend s' = pend s; L_log : log s' = log s;
  L_nextc : nextc s' = nextc s; L_parent : parent s' = parent s; L_routes : routes s' = routes s }.
(** [parent_op] of a node without a working connection to its parent calls [connect]. *)
Definition calls_parent (now : N) (s s' : node) : Prop :=
  alike (fst (connect (x_parent (cf s)) s)) s' /\
  ((0 <= snd (connect (x_parent (cf s)) s))%Z -> nst s' = NConnecting /\ popr s' = now + x_first (cf s)) /\
  ((snd (connect (x_parent (cf s)) s) < 0)%Z -> popr s' = now + x_retry (cf s)).
(** The parent is reached: its control connection is up. *)
Definition reached (s : node) : Prop := exists p c, parent s = Some p /\ ctrl_conn s p = Some c.
Lemma parent_op_calls now s : my_id s <> 0 -> x_parent (cf s) <> [] -> 0 < popr s < now -> ~ reached s ->
  calls_parent now s (parent_op now s).
Proof.
  intros I X P NR. unfold parent_op. apply N.eqb_neq in I. apply bytes_nil in X. rewrite I, X.
  destruct (N.eqb_spec (popr s) 0); [lia|]. destruct (N.ltb_spec (popr s) now); [|lia]. cbn [negb andb].
  assert (Q : calls_parent now s (let (s1, r) := connect (x_parent (cf s)) s in
        if (r <? 0)%Z then set_popr (now + x_retry (cf s1)) s1
        else set_nst NConnecting (set_popr (now + x_first (cf s1)) s1))).
  { unfold calls_parent. pose proof (kt_connect (x_parent (cf s)) s) as K. destruct (connect _ s) as [s1 r]. cbn [fst snd] in *.
    pose proof (T_cf _ _ K) as KC. destruct (Z.ltb_spec r 0) as [Z1|Z1].
    - split; [now constructor|]. split; [lia|]. intros _. cbn. now rewrite KC.
    - split; [now constructor|]. split; [|lia]. intros _. cbn. now rewrite KC. }
  destruct (match parent s with Some p => ctrl_conn s p | None => None end) as [c|] eqn:C; [|exact Q].
  destruct (parent s) as [p|] eqn:PA; [|discriminate]. elim NR. now exists p, c.
Qed.
Lemma id_earlier now feed s : my_id (earlier now feed s) = my_id s /\ cf (earlier now feed s) = cf s /\ sec (earlier now feed s) = N.max (sec s) now.
Proof.
  assert (K : kc (if sec s <? now then set_sec now s else s) (earlier now feed s)).
  { unfold earlier. cbv zeta. eapply kc_trans; [apply (kc_fold proc_one), kc_proc_one|apply kc_sweep]. }
  rewrite (kc_id _ _ K), (C_cf _ _ K), (C_sec _ _ K). destruct (N.ltb_spec (sec s) now); cbn; repeat split; lia.
Qed.
(** [proc] finds the timer expired: unless something happened to the parent within this very
    call, [connect] is called with the address of the parent, or the parent is reached. *)
Theorem C64_contacted n now feed s s' : served n s -> nst s <> NCreated -> fl_shut s = false ->
  my_id s <> 0 -> x_parent (cf s) <> [] -> popr s < now -> proc n now feed s = Some s' ->
  let a := earlier now feed s in
  (exists s1, ping_loop n now None (parent_op now a) = Some s1 /\ s' = stop_if_shut (collect (fst (dispatch_self s1)))) /\
  ((popr a = popr s /\ (reached a \/ calls_parent now a (parent_op now a))) \/
   (popr a <> popr s /\ now <= popr a <= sec a + longest (cf s))).
Proof.
  intros V C F I X P R a. destruct (armed_served _ _ V) as [A1 A2 A3].
  destruct (id_earlier now feed s) as (E1 & E2 & E3). fold a in E1, E2, E3.
  pose proof (kt_earlier now feed s) as K. fold a in K. split.
  - unfold proc in R. cbv zeta in R. change (sweep _ now _) with a in R.
    set (s1 := if sec s <? now then set_sec now s else s) in *.
    assert (N1 : nst s1 = nst s) by (subst s1; destruct (_ <? _); reflexivity).
    assert (F1 : fl_shut s1 = false) by (subst s1; destruct (_ <? _); exact F). rewrite N1, F1 in R.
    destruct (nst s); [now elim C|..]; (destruct (ping_loop n now None (parent_op now a)) as [s2|]; [|discriminate]; injection R as <-; now exists s2).
  - destruct K as [K1 K2 K3]. set (s1 := if sec s <? now then set_sec now s else s) in *.
    assert (Q : popr s1 = popr s /\ cf s1 = cf s /\ now <= sec s1).
    { subst s1. destruct (N.ltb_spec (sec s) now); cbn; repeat split; lia. }
    destruct Q as (Q1 & Q2 & Q3). rewrite Q1, Q2 in K3.
    destruct (N.eq_dec (popr a) (popr s)) as [Y|Y].
    + left. split; [exact Y|].
      assert (D : reached a \/ ~ reached a).
      { unfold reached. destruct (parent a) as [p|] eqn:PA; [|right; intros (p & c & H & _); discriminate].
        destruct (ctrl_conn a p) as [c|] eqn:CC; [left; now exists p, c|right; intros (p' & c & H & H2); congruence]. }
      destruct D as [D|D]; [now left|right]. apply parent_op_calls; trivial; rewrite ?E1, ?E2; trivial; lia.
    + right. split; [exact Y|]. rewrite K2. unfold longest. lia.
Qed.

(** ** Cases *)
(** A node with a parent: it connects, the parent registers (id 1, covering 0-16777215) and
    accepts the registration of the node. *)
Definition cfgp : cfg := set_pa adr cfg0.
Definition wide := [{|c_prefix:=0;c_mask:=24|}].
Definition up0 : list event := [EInit 65536 cfgp].
Definition up1 : list event := [EIo (IConnected 1 0); EIo (IRecv 1 (RMsg 10 (msg0 1 (BReg false (reg0 1 wide)))));
  EIo (IRecv 1 (RMsg 10 (msg0 1 (BReg true (reg0 1 wide)))))].
Lemma run_cut n l1 : forall l2 s s', run n (l1 ++ l2) s = Some s' -> exists s0, run n l1 s = Some s0 /\ run n l2 s0 = Some s'.
Proof.
  induction l1 as [|ev l IH]; intros l2 s s' R; cbn [app run] in *; [now exists s|].
  destruct (step n ev s) as [s1|]; [|discriminate]. now apply IH.
Qed.
Lemma served_by post s : Forall no_init post -> steady 0 (up0 ++ EStart 100 :: post) ->
  run fuel0 (up0 ++ EStart 100 :: post) new_node = Some s -> served fuel0 s.
Proof.
  intros F S R. destruct (run_cut _ _ _ _ _ R) as (s0 & R0 & R1). constructor. exists up0, 100, post, s0.
  assert (E0 : option_map (fun s => (nst s, my_id s, x_parent (cf s), parent s)) (run fuel0 up0 new_node) = Some (NInited, 65536, adr, None))
    by (vm_compute; reflexivity).
  rewrite R0 in E0. cbn [option_map] in E0. injection E0 as E1 E2 E3 E4. rewrite E1, E2, E3, E4.
  split; [exact R0|]. split; [exact S|]. repeat (split; [discriminate || reflexivity || exact F|]). exact R1.
Qed.
(** The parent is lost; the next [proc] connects again (connection 3). *)
Example C64_case : exists s s' a, served fuel0 s /\ nst s <> NCreated /\ fl_shut s = false /\ my_id s <> 0 /\ x_parent (cf s) <> [] /\
  popr s < 105 /\ a = earlier 105 [] s /\ proc fuel0 105 [] s = Some s' /\ popr a = popr s /\ nst s = NLost /\ nst s' = NConnecting /\
  In 3 (pend s') /\ ~ In 3 (pend s) /\ k_addr (cs s' 3) = adr.
Proof.
  pose (pre := up0). pose (post := up1 ++ [EIo (IClosed 1); EPoll []]).
  pose (f := fun s => (nst s, fl_shut s, my_id s, x_parent (cf s), popr s, pend s, popr (earlier 105 [] s),
     option_map (fun s' => (nst s', pend s', k_addr (cs s' 3))) (proc fuel0 105 [] s))).
  assert (E : option_map f (run fuel0 (pre ++ EStart 100 :: post) new_node) =
    Some (NLost, false, 65536, adr, 103, [2], 103, Some (NConnecting, [2; 3], adr))) by (vm_compute; reflexivity).
  destruct (run fuel0 (pre ++ EStart 100 :: post) new_node) as [s|] eqn:R; [|discriminate E].
  cbn [option_map] in E. injection E as H1 H2 H3 H4 H5 H6 H7 H8.
  destruct (proc fuel0 105 [] s) as [s'|] eqn:P; [|discriminate H8]. cbn [option_map] in H8. injection H8 as G1 G2 G3.
  exists s, s', (earlier 105 [] s).
  assert (V : served fuel0 s).
  { apply (served_by post); [now repeat constructor|cbn; repeat split; lia|exact R]. }
  split; [exact V|]. rewrite H1, H2, H3, H4, H5, H6, H7, G1, G2, G3.
  split; [discriminate|]. split; [reflexivity|]. split; [discriminate|]. split; [discriminate|]. split; [lia|]. split; [reflexivity|].
  split; [exact P|]. split; [reflexivity|]. split; [reflexivity|]. split; [reflexivity|]. split; [cbn; tauto|]. split; [|reflexivity].
  intros [X|[]]. discriminate X.
Qed.

(** What is not so. The time of the next contact survives [reset] and [init]: a node that was
    initialised again contacts its parent although it was not started. *)
Definition restarted : list event := up0 ++ EStart 100 :: up1 ++ [EReset; EInit 65536 cfgp].
Theorem C64_before_start_refuted : exists s s', run fuel0 restarted new_node = Some s /\ nst s = NInited /\ pend s = [] /\
  proc fuel0 200 [] s = Some s' /\ nst s' = NConnecting /\ pend s' = [3] /\ k_addr (cs s' 3) = adr.
Proof.
  pose (f := fun s => (nst s, pend s, option_map (fun s' => (nst s', pend s', k_addr (cs s' 3))) (proc fuel0 200 [] s))).
  assert (E : option_map f (run fuel0 restarted new_node) = Some (NInited, [], Some (NConnecting, [3], adr))) by (vm_compute; reflexivity).
  destruct (run fuel0 restarted new_node) as [s|] eqn:R; [|discriminate E]. cbn [option_map] in E. injection E as H1 H2 H3.
  destruct (proc fuel0 200 [] s) as [s'|] eqn:P; [|discriminate H3]. cbn [option_map] in H3. injection H3 as G1 G2 G3.
  exists s, s'. split; [reflexivity|]. repeat (split; [assumption|]). assumption.
Qed.
(** A node that was not up yet does not try again: when its first attempt is refused it
    shuts down. *)
Definition refused : list event := up0 ++ [EStart 100; EIo (IConnected 1 (-1))].
Theorem C64_first_refused_refuted : exists s s', run fuel0 refused new_node = Some s /\ fl_shut s = true /\
  proc fuel0 104 [] s = Some s' /\ nst s' = NCreated /\ pend s' = [].
Proof.
  pose (f := fun s => (fl_shut s, option_map (fun s' => (nst s', pend s')) (proc fuel0 104 [] s))).
  assert (E : option_map f (run fuel0 refused new_node) = Some (true, Some (NCreated, []))) by (vm_compute; reflexivity).
  destruct (run fuel0 refused new_node) as [s|] eqn:R; [|discriminate E]. cbn [option_map] in E. injection E as H1 H2.
  destruct (proc fuel0 104 [] s) as [s'|] eqn:P; [|discriminate H2]. cbn [option_map] in H2. injection H2 as G1 G2.
  exists s, s'. split; [reflexivity|]. repeat (split; [assumption|]). assumption.
Qed.
(** When [connect] itself returned an error at [start], the attempt it left behind is taken
    for a pending one: the next try does nothing, and when the old attempt runs out of time
    the node shuts down. *)
Definition failed : list event := up0 ++ [EWorld [(-1)%Z] []; EStart 100].
Theorem C64_idle_retry_refuted : exists s s' s2, run fuel0 failed new_node = Some s /\ nst s = NLost /\ popr s < 104 /\ pend s = [] /\
  proc fuel0 104 [] s = Some s' /\ nst s' = NConnecting /\ pend s' = [] /\ nextc s' = nextc s /\
  proc fuel0 131 [] s' = Some s2 /\ nst s2 = NCreated.
Proof.
  pose (f := fun s => (nst s, popr s, pend s, nextc s, option_map (fun s' => (nst s', pend s', nextc s', option_map nst (proc fuel0 131 [] s'))) (proc fuel0 104 [] s))).
  assert (E : option_map f (run fuel0 failed new_node) = Some (NLost, 103, [], 2, Some (NConnecting, [], 2, Some NCreated))) by (vm_compute; reflexivity).
  destruct (run fuel0 failed new_node) as [s|] eqn:R; [|discriminate E]. cbn [option_map] in E. injection E as H1 H2 H3 H4 H5.
  destruct (proc fuel0 104 [] s) as [s'|] eqn:P; [|discriminate H5]. cbn [option_map] in H5. injection H5 as G1 G2 G3 G4.
  destruct (proc fuel0 131 [] s') as [s2|] eqn:P2; [|discriminate G4]. cbn [option_map] in G4. injection G4 as G4.
  exists s, s', s2. rewrite H2, H4. split; [reflexivity|]. split; [assumption|]. split; [lia|]. repeat (split; [assumption|]). assumption.
Qed.

Print Assumptions C64_planned.
Print Assumptions C64_contacted.
Print Assumptions C64_before_start_refuted.
Print Assumptions C64_first_refused_refuted.
Print Assumptions C64_idle_retry_refuted.
