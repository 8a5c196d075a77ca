(** Ping rounds of a silent endpoint. *)
From Coq Require Import Sorted.
From Verif Require Import Base Subnet Route RouteProof Address NodeTypes NodeConn NodeCore NodeMsg Node
  NodeFrame NodeReset NodeInv NodeKeep NodeSteps NodeCtx NodeReach NodeSpec NodeLog NodeNotice NodeRoute NodeAuth NodeTime NodePing NodeWeary.
Local Open Scope N_scope.
Ltac Zify.zify_post_hook ::= idtac.

(** ** What is known of the states between two calls *)
Definition sound (s : node) : Prop := Inv s /\ noticed s /\ routed_ok s.
Lemma sound_steps a s s' : steps a s s' -> sound s -> sound s'.
Proof.
  intros S (I & H). split; [eapply steps_Inv; eauto|].
  apply (esteps_ind_inv true (fun s => noticed s /\ routed_ok s)) with (s := s); [apply estep_ro|exact I|eapply steps_esteps; eauto|exact H].
Qed.
Lemma steps_longer a s s' : steps a s s' -> longer s s'.
Proof. induction 1 as [|s1 s2 s3 M S IH]; [apply longer_refl|]. eapply longer_trans; [eapply micro_longer; eauto|exact IH]. Qed.
Lemma settled_steps a s s' : sound s -> steps a s s' -> settled s' -> settled s.
Proof.
  intros (I & N & _) S H. destruct (steps_longer _ _ _ S) as [l L]. exact (settled_back s s' l I (steps_grow _ _ _ I S) N L H).
Qed.
(** Only registrations add endpoints. *)
Lemma settled_on s s' : sound s -> steps false s s' -> settled s -> settled s'.
Proof.
  intros (I & N & _) S H e A. apply (steps_noadd s s' I S) in A. rewrite (G_ep _ _ (steps_grow _ _ _ I S)); [auto|].
  split; [|apply (I_log s I); now left].
  destruct (N.eq_dec e 0) as [->|]; [|lia]. exfalso.
  assert (X : In true (notified 0 (rev (log s)))); [|now rewrite (N_pos s N) in X].
  unfold notified. apply in_flat_map. exists (TAdded 0). split; [now apply in_rev in A|]. now left.
Qed.
Lemma reachable_sound s : reachable s -> sound s.
Proof. intro R. split; [now apply reachable_Inv|]. split; [now apply reachable_noticed|now apply reachable_routed]. Qed.

(** ** Giving up an endpoint of the routing table *)
Definition gone (e : N) (s : node) : Prop := In (TRemoved e) (log s).
Lemma gone_longer e s s' : longer s s' -> gone e s -> gone e s'.
Proof. intros [l E] G. unfold gone. rewrite E. apply in_or_app. now right. Qed.
Lemma notified_removed e l : In false (notified e l) -> In (TRemoved e) l.
Proof.
  unfold notified. intro H. apply in_flat_map in H as (t & T & H). destruct t; try contradiction; cbn in H.
  - destruct (N.eqb_spec e0 e); cbn in H; intuition discriminate.
  - destruct (N.eqb_spec e0 e) as [->|]; cbn in H; [exact T|contradiction].
Qed.
Lemma added_notified e l : In (TAdded e) l -> In true (notified e l).
Proof. intro H. unfold notified. apply in_flat_map. exists (TAdded e). split; [exact H|]. cbn. rewrite N.eqb_refl. now left. Qed.
(** An endpoint that was added is in the table or was removed. *)
Lemma added_in s e : sound s -> settled s -> In (TAdded e) (log s) -> gone e s \/ present s e.
Proof.
  intros (I & N & R) S A. destruct (R S) as [_ P]. pose proof (N_hist s N e) as H.
  assert (T : In true (notified e (rev (log s)))) by (apply added_notified; now apply in_rev in A).
  remember (notified e (rev (log s))) as l eqn:L. destruct H as [H|H1 H2|k H1 H2].
  - contradiction.
  - right. apply P. now symmetry.
  - left. unfold gone. apply in_rev. apply notified_removed. rewrite <- L. right. now left.
Qed.
(** Nobody else has its id. *)
Definition lone (e : N) (s : node) : Prop :=
  e_id (d_ep (es s e)) <> my_id s /\ forall p, parent s = Some p -> e_id p <> e_id (d_ep (es s e)).
Lemma fault_gone s e : sound s -> settled s -> In (TAdded e) (log s) -> 0 < e < nexte s -> lone e s ->
  snd (ep_fault e s) = true -> gone e (fst (ep_fault e s)).
Proof.
  intros SO S A RE (L1 & L2). unfold ep_fault. cbv zeta. set (s0 := on_e e (fun d => set_d_fault (d_fault d + 1) d) s). set (s1 := emit (TFault e _ _) s0).
  destruct (_ <? _); [|discriminate]. intros _. cbn [fst].
  assert (E : d_ep (es s1 e) = d_ep (es s e)) by (change (es s1 e) with (es s0 e); subst s0; now rewrite es_on_e, N.eqb_refl).
  assert (Q : (exists t, log s1 = [t] ++ log s) /\ parent s1 = parent s /\ routes s1 = routes s /\ my_id s1 = my_id s) by (repeat split; now eexists).
  clearbody s1. clear s0. destruct Q as ([t0 Q1] & Q2 & Q3 & Q4).
  destruct (added_in s e SO S A) as [G|P].
  { apply (gone_longer e s1); [|unfold gone in *; rewrite Q1; now right].
    unfold remove_endpoint. destruct (is_parent s1 _).
    - destruct (parent s1) as [p|]; [|apply longer_refl]. cbv zeta. cbn [fst]. set (s2 := emit _ _).
      assert (K : longer s1 s2) by now exists [TRemoved (e_ref p)]. clearbody s2. destruct (fl_act s2); [exact K|].
      eapply longer_trans; [exact K|]. apply (steps_longer true), st_fatal.
    - destruct (_ =? _); [apply longer_refl|]. destruct (remove_child _ _ _) as [[] t]; [|apply longer_refl].
      destruct (child_at _ _) as [y|]; [|apply longer_refl]. now exists [TRemoved (e_ref y)]. }
  destruct SO as (I & N & R). destruct (R S) as [(live & SIM) _].
  assert (P' : exists p, In p (routes s) /\ e_ref (snd p) = e).
  { destruct P as [(p & P & EP)|P]; [|exact P]. exfalso. apply (L2 p P). rewrite <- EP.
    pose proof (tab_parent s p I P) as [_ D]. now rewrite D. }
  destruct P' as ([r x] & P' & EX). cbn [snd] in EX.
  pose proof (tab_route s _ I P') as [_ D]. cbn [snd] in D. rewrite EX in D.
  apply (sim_in _ _ SIM) in P' as [LX _].
  assert (GX : good_ep x) by (pose proof (sim_ep _ _ SIM) as F; rewrite Forall_forall in F; auto).
  destruct (sim_lookup _ _ (e_id x) x SIM LX (good_ep_serves x GX)) as (r' & LB & _).
  unfold remove_endpoint. rewrite E, D.
  assert (IP : is_parent s1 (e_id x) = false).
  { unfold is_parent. destruct (my_id s1 =? 0); [reflexivity|]. rewrite Q2. destruct (parent s) as [p|] eqn:PP; [|reflexivity].
    specialize (L2 p eq_refl). rewrite D in L2. apply N.eqb_neq. congruence. }
  rewrite IP, Q4. rewrite D in L1. assert (M : (my_id s =? e_id x) = false) by (apply N.eqb_neq; congruence). rewrite M.
  unfold remove_child, child_at. rewrite Q3, LB, N.eqb_refl. cbn [negb option_map snd fst]. unfold gone, emit. cbn. left. now rewrite EX.
Qed.

(** ** One round *)
Definition patience (tol : N) (d : epd) : N := (tol + 1 - d_fault d) + (if d_ping d =? 0 then 1 else 0).
Lemma wr_patience e s s' : wr e s s' -> e < nexte s -> patience (x_tol (cf s')) (es s' e) <= patience (x_tol (cf s)) (es s e).
Proof.
  intros (C & _ & W) L. destruct (W L) as [W1 W2]. rewrite C. unfold patience.
  destruct (N.eqb_spec (d_ping (es s' e)) 0) as [Z|Z], (N.eqb_spec (d_ping (es s e)) 0) as [Z'|Z']; lia.
Qed.
(** [worn e s s']: after a round. *)
Definition worn (e : N) (s s' : node) : Prop := gone e s' \/
  (cf s' = cf s /\ patience (x_tol (cf s)) (es s' e) < patience (x_tol (cf s)) (es s e) /\
   (d_fault (es s e) <= x_tol (cf s) -> d_fault (es s' e) <= x_tol (cf s))).
(** The rest of the round. *)
Definition kept (e : N) (s s' : node) : Prop := gone e s' \/
  (cf s' = cf s /\ d_fault (es s' e) = d_fault (es s e) /\ d_ping (es s' e) = d_ping (es s e)).
Lemma worn_kept e s1 s2 s3 : longer s2 s3 -> worn e s1 s2 -> kept e s2 s3 -> worn e s1 s3.
Proof.
  intros L [A|(A1 & A2 & A3)] [B|(B1 & B2 & B3)]; try (now left); [left; now apply (gone_longer e s2)|].
  right. unfold patience in *. rewrite B1, B2, B3. auto.
Qed.
Lemma kept_worn e s1 s2 s3 : longer s2 s3 -> kept e s1 s2 -> worn e s2 s3 -> worn e s1 s3.
Proof.
  intros L [A|(A1 & A2 & A3)] B; [left; now apply (gone_longer e s2)|]. destruct B as [B|(B1 & B2 & B3)]; [now left|].
  right. unfold patience in *. rewrite A1, A2, A3 in *. rewrite B1. auto.
Qed.
Lemma lone_ab e s s' : about1 e s s' -> parent s' = parent s -> lone e s -> lone e s'.
Proof.
  intros [B1 B2 B3 B4 B5 B6 B7 B8 B9 B10 B11] P (L1 & L2). unfold lone, my_id. rewrite B6, B11, P. auto.
Qed.
Record ready (e : N) (s : node) : Prop := {
  Y_sound : sound s; Y_settled : settled s; Y_added : In (TAdded e) (log s); Y_range : 0 < e < nexte s; Y_lone : lone e s }.
Lemma ready_on e s s' : steps false s s' -> self s' = self s -> (forall p, parent s' = Some p -> parent s = Some p) -> ready e s -> ready e s'.
Proof.
  intros S E P [Y1 Y2 Y3 Y4 [Y5 Y6]]. destruct Y1 as (I & R). pose proof (steps_grow _ _ _ I S) as G. constructor.
  - eapply sound_steps; [exact S|now split].
  - eapply settled_on; [|exact S|exact Y2]. now split.
  - destruct (steps_longer _ _ _ S) as [l L]. rewrite L. apply in_or_app. now right.
  - destruct G. lia.
  - unfold lone, my_id in *. rewrite E, (G_ep _ _ G) by exact Y4. split; [exact Y5|]. intros p X. apply Y6. auto.
Qed.
Lemma worn_fault e s : ready e s ->
  worn e s (fst (fault_drop true e s)) /\ (snd (fault_drop true e s) = true -> gone e (fst (fault_drop true e s))).
Proof.
  intros [SO S A RE L]. pose proof (fault_gone s e SO S A RE L) as G. unfold fault_drop. unfold ep_fault in *. cbv zeta in *.
  set (s0 := on_e e _ s) in *. set (s1 := emit _ s0) in *.
  assert (F : d_fault (es s1 e) = d_fault (es s e) + 1 /\ d_ping (es s1 e) = d_ping (es s e)) by (change (es s1) with (es s0); subst s0; now rewrite es_on_e, N.eqb_refl).
  assert (C : cf s1 = cf s) by reflexivity. clearbody s1. destruct F as [F1 F2].
  destruct (N.ltb_spec (x_tol (cf s1)) (d_fault (es s1 e))) as [X|X]; cbn [fst snd andb negb] in *.
  - split; [left|]; auto.
  - split; [right|discriminate]. split; [exact C|]. unfold patience. rewrite F1, F2, C in *. split; [|auto]. destruct (_ =? 0); lia.
Qed.
Lemma worn_trans e s1 s2 s3 : longer s2 s3 -> worn e s1 s2 -> worn e s2 s3 -> worn e s1 s3.
Proof.
  intros L [A|(A1 & A2 & A3)] B; [left; now apply (gone_longer e s2)|]. destruct B as [B|(B1 & B2 & B3)]; [now left|].
  right. rewrite A1 in *. split; [exact B1|]. split; [lia|auto].
Qed.
(** As [worn], but the round may not have cost anything yet. *)
Definition easy (e : N) (s s' : node) : Prop := worn e s s' \/ kept e s s'.
Lemma easy_worn e s1 s2 s3 : longer s2 s3 -> easy e s1 s2 -> worn e s2 s3 -> worn e s1 s3.
Proof. intros L [A|A] B; [eapply worn_trans; eauto|eapply kept_worn; eauto]. Qed.
Lemma kept_es e s s' : cf s' = cf s -> es s' e = es s e -> kept e s s'.
Proof. intros A B. right. rewrite B. auto. Qed.
(** The parent can only be lost. *)
Definition pshr (s s' : node) : Prop := forall p, parent s' = Some p -> parent s = Some p.
Lemma pshr_same s s' : parent s' = parent s -> pshr s s'. Proof. intros E p. now rewrite E. Qed.
Lemma pshr_trans s1 s2 s3 : pshr s1 s2 -> pshr s2 s3 -> pshr s1 s3. Proof. intros A B p X. auto. Qed.
Lemma pshr_fault e s : pshr s (fst (fault_drop true e s)).
Proof.
  unfold fault_drop, ep_fault. cbv zeta. destruct (_ <? _); [|now apply pshr_same]. cbn [andb negb fst].
  set (s1 := emit _ (on_e _ _ s)). assert (PS : parent s = parent s1) by reflexivity. clearbody s1. intro p. rewrite PS. unfold remove_endpoint.
  destruct (is_parent s1 _).
  - destruct (parent s1) eqn:P; [|cbn [fst]; congruence]. cbn [fst]. unfold fatal_shutdown, shutdown. cbn.
    destruct (fl_act s1) eqn:FA; cbn; try discriminate; destruct (fl_shut s1); cbn; rewrite ?FA; discriminate.
  - destruct (_ =? _); [trivial|]. destruct (remove_child _ _ _) as [[] t]; [|trivial]. destruct (child_at _ _); trivial.
Qed.
Lemma pshr_ping e s : pshr s (fst (ping_endpoint true e s)).
Proof.
  unfold ping_endpoint.
  assert (H : pshr s (fst (if d_ping (es s e) =? 0 then (s, false) else fault_drop true e s))).
  { destruct (_ =? _); [now apply pshr_same|apply pshr_fault]. }
  destruct (if d_ping (es s e) =? 0 then _ else _) as [s1 g]. cbn [fst] in H. eapply pshr_trans; [exact H|]. clear H s.
  destruct g; [now apply pshr_same|]. destruct (self s1); [|now apply pshr_same]. destruct (_ =? _); [now apply pshr_same|].
  destruct (ctrl_conn s1 _) as [c|]; [|apply pshr_fault].
  assert (H : pshr s1 (fst (alloc_seq s1))) by now apply pshr_same. destruct (alloc_seq s1) as [s2 q]. cbn [fst] in H.
  eapply pshr_trans; [exact H|]. clear H.
  assert (H : pshr s2 (fst (send_ping c q s2))) by (unfold send_ping; apply pshr_same; fr1). destruct (send_ping c q s2) as [s3 r].
  cbn [fst] in H. eapply pshr_trans; [exact H|]. clear H. destruct (_ <? _)%Z; [apply pshr_fault|]. cbv zeta. cbn [fst].
  apply pshr_trans with (s2 := match data_conn s3 (d_ep (es s3 e)) false with Some _ => s3 | None => fst (ep_fault e s3) end).
  - destruct (data_conn _ _ _); [now apply pshr_same|]. pose proof (pshr_fault e s3) as H. unfold fault_drop in H.
    destruct (ep_fault e s3) as [s4 g]. cbn [fst negb] in *. now rewrite andb_false_r in H.
  - destruct (data_conn _ _ _); [now apply pshr_same|]. destruct (ep_fault e s3) as [s4 g]. cbn [fst negb]. rewrite andb_false_r. now apply pshr_same.
Qed.
Lemma ready_fault e s : ready e s -> ready e (fst (fault_drop true e s)).
Proof.
  intros Y. apply ready_on with (s := s); trivial; [|now apply (C_self s), kc_fault_drop|apply pshr_fault].
  apply Y_sound in Y as SO. apply Y_range in Y as RE. destruct SO as [I _]. eauto with st.
Qed.
Lemma ping_round e s : ready e s -> self s <> None -> my_id s <> 0 -> worn e s (fst (ping_endpoint true e s)).
Proof.
  intros Y SE MI. unfold ping_endpoint.
  set (d0 := d_ping (es s e)). assert (D0 : d_ping (es s e) = d0) by reflexivity.
  assert (H : easy e s (fst (if d0 =? 0 then (s, false) else fault_drop true e s)) /\
              ready e (fst (if d0 =? 0 then (s, false) else fault_drop true e s)) /\
              (snd (if d0 =? 0 then (s, false) else fault_drop true e s) = true -> worn e s (fst (if d0 =? 0 then (s, false) else fault_drop true e s))) /\
              self (fst (if d0 =? 0 then (s, false) else fault_drop true e s)) = self s /\
              (d0 <> 0 -> worn e s (fst (if d0 =? 0 then (s, false) else fault_drop true e s))) /\
              (d0 = 0 -> d_ping (es (fst (if d0 =? 0 then (s, false) else fault_drop true e s)) e) = 0)).
  { destruct (N.eqb_spec d0 0) as [Z|Z].
    - split; [right; now apply kept_es|]. split; [exact Y|]. split; [discriminate|]. split; [reflexivity|]. split; [now intros []|]. intros _; exact Z.
    - destruct (worn_fault e s Y) as [W G]. split; [now left|]. split; [now apply ready_fault|]. split; [intros X; left; now apply G|].
      split; [now apply (C_self s), kc_fault_drop|]. split; [intros _; exact W|]. now intros X. }
  destruct (if d0 =? 0 then (s, false) else fault_drop true e s) as [s1 g]. cbn [fst snd] in H.
  destruct H as (H & Y1 & G & SE1 & HW & HZ). destruct g; [cbn [fst]; now apply G|]. clear G.
  assert (MI1 : my_id s1 <> 0) by (unfold my_id; rewrite SE1; exact MI). rewrite <- SE1 in SE.
  destruct (self s1) as [m|] eqn:SE2; [|now elim SE]. apply N.eqb_neq in MI1. rewrite MI1.
  destruct (ctrl_conn s1 _) as [c|].
  2: { cbn [fst]. eapply easy_worn; [|exact H|now apply worn_fault]. apply (steps_longer true).
       destruct (Y_sound _ _ Y1) as [I1 _]. pose proof (Y_range _ _ Y1). eauto with st. }
  pose proof (seq_pos s1) as Q.
  assert (S2 : steps false s1 (fst (alloc_seq s1))) by eauto with st.
  assert (E2 : es (fst (alloc_seq s1)) = es s1 /\ self (fst (alloc_seq s1)) = self s1 /\ parent (fst (alloc_seq s1)) = parent s1 /\ cf (fst (alloc_seq s1)) = cf s1) by (repeat split).
  destruct (alloc_seq s1) as [s2 q]. cbn [fst snd] in *. destruct E2 as (E2 & E2' & E2'' & E2c).
  assert (Y2 : ready e s2) by (eapply ready_on; [exact S2|exact E2'|intros p X; congruence|exact Y1]).
  assert (S3 : steps false s2 (fst (send_ping c q s2))) by (destruct (Y_sound _ _ Y2); eauto with st).
  assert (E3 : es (fst (send_ping c q s2)) = es s2 /\ self (fst (send_ping c q s2)) = self s2 /\ parent (fst (send_ping c q s2)) = parent s2 /\ cf (fst (send_ping c q s2)) = cf s2).
  { unfold send_ping. repeat split; fr1. }
  destruct (send_ping c q s2) as [s3 r]. cbn [fst] in *. destruct E3 as (E3 & E3' & E3'' & E3c).
  assert (Y3 : ready e s3) by (eapply ready_on; [exact S3|exact E3'|intros p X; congruence|exact Y2]).
  assert (K3 : kept e s1 s3) by (apply kept_es; [congruence|now rewrite E3, E2]).
  assert (L3 : longer s1 s3) by (eapply longer_trans; eapply steps_longer; eauto).
  pose proof (worn_fault e s3 Y3) as [W3 _].
  assert (L4 : longer s3 (fst (fault_drop true e s3))).
  { apply (steps_longer true). destruct (Y_sound _ _ Y3) as [I3 _]. pose proof (Y_range _ _ Y3). eauto with st. }
  destruct (r <? 0)%Z.
  { cbn [fst]. eapply easy_worn; [|exact H|]; [eapply longer_trans; eauto|]. eapply kept_worn; eauto. }
  cbv zeta. cbn [fst].
  match goal with |- worn e s (on_e e _ ?t) => set (s4 := t) end.
  assert (H4 : longer s3 s4 /\ (s4 = s3 \/ worn e s3 s4)).
  { subst s4. destruct (data_conn _ _ _); [split; [apply longer_refl|now left]|].
    unfold fault_drop in W3, L4. destruct (ep_fault e s3) as [s5 g]. cbn [fst negb] in *. rewrite andb_false_r in *. cbn [andb]. auto. }
  clearbody s4. destruct H4 as [L5 H4].
  assert (P : forall t, longer t (on_e e (set_d_ping q) t)) by (intro t; now exists []).
  assert (PW : forall t, d_fault (es (on_e e (set_d_ping q) t) e) = d_fault (es t e) /\ d_ping (es (on_e e (set_d_ping q) t) e) = q)
    by (intro t; rewrite es_on_e, N.eqb_refl; auto).
  assert (SET : forall t u, worn e t u -> worn e t (on_e e (set_d_ping q) u)).
  { intros t u [X|(X1 & X2 & X3)]; [left; apply (gone_longer e u); auto|]. destruct (PW u) as [U1 U2].
    right. split; [exact X1|]. unfold patience in *. rewrite U1, U2. apply N.eqb_neq in Q. rewrite Q. split; [|exact X3]. destruct (d_ping (es u e) =? 0); lia. }
  destruct H4 as [->|W4].
  - destruct (N.eq_dec d0 0) as [Z|Z].
    + eapply easy_worn; [|exact H|]; [eapply longer_trans; [exact L3|apply P]|].
      eapply kept_worn; [apply P|exact K3|]. destruct (PW s3) as [U1 U2]. right. split; [reflexivity|]. unfold patience. rewrite U1, U2.
      assert (Z3 : d_ping (es s3 e) = 0) by (rewrite E3, E2; auto). rewrite Z3. apply N.eqb_neq in Q. rewrite Q. rewrite N.eqb_refl.
      split; [lia|auto].
    + apply SET. eapply worn_kept; [exact L3|now apply HW|exact K3].
  - apply SET. eapply easy_worn; [|exact H|]; [eapply longer_trans; eauto|]. eapply kept_worn; eauto.
Qed.

Lemma not_parent e s : ready e s -> match parent s with Some p => e_ref p =? e | None => false end = false.
Proof.
  intros [(I & _) _ _ _ [_ L]]. destruct (parent s) as [p|] eqn:P; [|reflexivity]. apply N.eqb_neq. intros <-.
  apply (L p eq_refl). pose proof (tab_parent s p I P) as [_ D]. now rewrite D.
Qed.
Lemma es_add_ping x s y : d_fault (es (add_ping x s) y) = d_fault (es s y) /\ d_ping (es (add_ping x s) y) = d_ping (es s y).
Proof.
  unfold add_ping, insert_ping. destruct (_ || _).
  - rewrite es_clear_ping. destruct (N.eqb_spec y (e_ref x)) as [->|]; auto.
  - rewrite es_on_e. cbn [es set_pings]. rewrite !es_clear_ping, N.eqb_refl. destruct (N.eqb_spec y (e_ref x)) as [->|]; auto.
Qed.
Lemma es_idle_out now e s y : d_fault (es (fst (idle_out now e s)) y) = d_fault (es s y) /\ d_ping (es (fst (idle_out now e s)) y) = d_ping (es s y).
Proof.
  unfold idle_out. destruct (is_available s e); [auto|]. unfold created. destruct (_ <? _); [auto|]. cbn [fst]. rewrite es_on_e.
  destruct (N.eqb_spec y e) as [->|]; auto.
Qed.
Lemma parent_idle_out now e s : parent (fst (idle_out now e s)) = parent s.
Proof. unfold idle_out. destruct (is_available s e); [reflexivity|]. unfold created. now destruct (_ <? _). Qed.
Lemma steps_handle now e s : Inv s -> 0 < e < nexte s -> steps false s (handle now e s).
Proof.
  intros I RE. unfold handle. cbv zeta.
  assert (S1 : steps false s (fst (idle_out now e s))) by eauto with st. eapply steps_trans; [exact S1|].
  assert (I1 : Inv (fst (idle_out now e s))) by (eapply steps_Inv; eauto).
  assert (R1 : 0 < e < nexte (fst (idle_out now e s))) by (destruct (steps_grow _ _ _ I S1); lia).
  set (s1 := fst (idle_out now e s)) in *. clearbody s1. set (b := match parent s1 with Some p => _ | None => false end).
  assert (S2 : steps false s1 (if b then s1 else fst (ping_endpoint true e s1))) by (destruct b; [apply steps_refl|eauto with st]).
  eapply steps_trans; [exact S2|]. set (s2 := if b then s1 else _) in *.
  assert (I2 : Inv s2) by (eapply steps_Inv; eauto). assert (R2 : 0 < e < nexte s2) by (destruct (steps_grow _ _ _ I1 S2); lia).
  clearbody s2. assert (AL : alive s2 (d_ep (es s2 e))) by now apply alive_d. eauto with st.
Qed.
Lemma pshr_handle now e s : pshr s (handle now e s).
Proof.
  unfold handle. cbv zeta. set (s1 := fst (idle_out now e s)). assert (P1 : pshr s s1) by (apply pshr_same, parent_idle_out).
  clearbody s1. eapply pshr_trans; [exact P1|]. set (b := match parent s1 with Some p => _ | None => false end).
  eapply pshr_trans; [|apply pshr_same; apply (keeps (f := parent))]. destruct b; [now apply pshr_same|apply pshr_ping].
Qed.
Lemma self_handle now e s : self (handle now e s) = self s.
Proof. apply (C_self s). unfold handle. kgo. Qed.
Lemma ready_handle now x e s : 0 < x < nexte s -> ready e s -> ready e (handle now x s).
Proof.
  intros RX Y. apply ready_on with (s := s); trivial; [|apply self_handle|apply pshr_handle]. apply steps_handle; [apply (Y_sound _ _ Y)|exact RX].
Qed.
Lemma ready_drop x e s : 0 < x < nexte s -> ready e s -> ready e (ep_drop x s).
Proof.
  intros RX Y. apply ready_on with (s := s); trivial; [now apply st_drop_ep|apply (C_self s), kc_ep_drop|].
  apply pshr_same. apply (keeps (f := parent)).
Qed.
Lemma handle_worn now e s : ready e s -> self s <> None -> my_id s <> 0 -> worn e s (handle now e s).
Proof.
  intros Y SE MI. pose proof (Y_sound _ _ Y) as (I & _). pose proof (Y_range _ _ Y) as RE. unfold handle. cbv zeta.
  assert (S1 : steps false s (fst (idle_out now e s))) by eauto with st.
  assert (SE1 : self (fst (idle_out now e s)) = self s) by (apply (C_self s), kc_idle_out).
  assert (Y1 : ready e (fst (idle_out now e s))).
  { eapply ready_on; [exact S1|exact SE1| |exact Y]. apply pshr_same, parent_idle_out. }
  assert (K1 : kept e s (fst (idle_out now e s))).
  { right. destruct (es_idle_out now e s e). split; [apply (C_cf s), kc_idle_out|auto]. }
  set (s1 := fst (idle_out now e s)) in *. clearbody s1. rewrite (not_parent e s1 Y1).
  assert (W : worn e s1 (fst (ping_endpoint true e s1))) by (apply ping_round; trivial; [congruence|unfold my_id; now rewrite SE1]).
  assert (L : longer s1 (fst (ping_endpoint true e s1))).
  { apply (steps_longer true). destruct (Y_sound _ _ Y1) as (I1 & _). pose proof (Y_range _ _ Y1). eauto with st. }
  set (s2 := fst (ping_endpoint true e s1)) in *. clearbody s2.
  eapply worn_kept with (s2 := s2).
  - apply longer_same. apply (keeps (f := log)).
  - eapply kept_worn; eauto.
  - right. destruct (es_add_ping (d_ep (es s2 e)) s2 e). split; [apply (keeps (f := cf))|auto].
Qed.
Lemma handle_other now x e s : x <> e -> d_fault (es (handle now x s) e) = d_fault (es s e) /\ d_ping (es (handle now x s) e) = d_ping (es s e).
Proof.
  intro D. unfold handle. cbv zeta. destruct (es_idle_out now x s e) as [<- <-]. set (s1 := fst (idle_out now x s)). clearbody s1.
  match goal with |- context [add_ping ?v ?t] => destruct (es_add_ping v t e) as [-> ->]; set (s2 := t) end.
  assert (E : es s2 e = es s1 e); [|now rewrite E]. subst s2. destruct (match parent s1 with Some p => _ | None => _ end); [reflexivity|].
  apply (B_es x). + apply ab_ping. + congruence.
Qed.

(** ** The rounds of one call of [proc] *)
Definition bowed (e : N) (s s' : node) : Prop := gone e s' \/
  (patience (x_tol (cf s')) (es s' e) < patience (x_tol (cf s)) (es s e) /\
   (d_fault (es s e) <= x_tol (cf s) -> 2 <= patience (x_tol (cf s)) (es s e))).
Lemma worn_bowed e s1 s2 s3 : longer s2 s3 -> wr e s2 s3 -> e < nexte s2 -> worn e s1 s2 -> bowed e s1 s3.
Proof.
  intros L W RE [G|(C & P & F)]; [left; now apply (gone_longer e s2)|]. right. apply wr_patience in W; [|exact RE]. rewrite C in W.
  split; [lia|]. intro X. specialize (F X). unfold patience in *. destruct (d_ping (es s2 e) =? 0), (d_ping (es s1 e) =? 0); lia.
Qed.
Lemma same_bowed e s1 s2 s3 : cf s2 = cf s1 -> d_fault (es s2 e) = d_fault (es s1 e) -> d_ping (es s2 e) = d_ping (es s1 e) ->
  bowed e s2 s3 -> bowed e s1 s3.
Proof. unfold bowed, patience. intros -> -> ->. trivial. Qed.
Theorem loop_round now t e n : forall nx s s', ready e s -> now <= sec s -> active now s -> self s <> None -> my_id s <> 0 ->
  In (t, e) (pings s) -> t <= now -> split_at now s -> (forall x, nx = Some x -> exists t r, pings s = (t, x) :: r /\ t <= now) ->
  ping_loop n now nx s = Some s' -> bowed e s s'.
Proof.
  induction n as [|n IH]; intros nx s s' Y W A SE MI IN LE SP NX X; [discriminate|].
  destruct (pings s) as [|[t0 e0] l] eqn:P; [contradiction|].
  assert (L0 : t0 <= now).
  { destruct (N.le_gt_cases t0 now) as [|L]; [assumption|]. exfalso. pose proof (split_done now s SP) as F. rewrite P in F. specialize (F L).
    rewrite Forall_forall in F. specialize (F _ IN). cbn in F. lia. }
  assert (I : Inv s) by apply Y.
  assert (IN0 : In (t0, e0) (pings s)) by (rewrite P; now left).
  assert (R0 : 0 < e0 < nexte s) by exact (timer_range s t0 e0 I IN0).
  rewrite (ping_loop_step now n nx s t0 e0 l P L0) in X.
  2: { intros x E. destruct (NX x E) as (? & ? & Q & ?). now injection Q. }
  2: { destruct (snd (idle_out now e0 s)) eqn:O; [|reflexivity]. exfalso. apply (idle_out_true now e0 s W) in O as [_ O]. now apply (A t0 e0). }
  cbv zeta in X. pose proof (handle_ok now e0 s I W R0) as H. pose proof (ready_handle now e0 e s R0 Y) as Y1.
  assert (R1 : 0 < e0 < nexte (handle now e0 s)) by (pose proof (H_next _ _ _ _ H); lia).
  pose proof (self_handle now e0 s) as SE1.
  assert (HW : e0 = e -> worn e s (handle now e0 s)) by (intros ->; now apply handle_worn).
  assert (HO : e0 <> e -> d_fault (es (handle now e0 s) e) = d_fault (es s e) /\ d_ping (es (handle now e0 s) e) = d_ping (es s e)) by apply handle_other.
  set (s1 := handle now e0 s) in *. clearbody s1.
  pose proof (drop_ok now e0 s s1 H R1) as H2. pose proof (ready_drop e0 e s1 R1 Y1) as Y2.
  pose proof (handled_active _ _ _ _ H2 A) as A2. pose proof (split_handled _ _ _ _ H2 SP) as SP2.
  pose proof (H_sec _ _ _ _ H2) as W2.
  assert (SE2 : self (ep_drop e0 s1) = self s) by (rewrite <- SE1; apply (C_self s1), kc_ep_drop).
  assert (FIN : forall s', longer (ep_drop e0 s1) s' -> wr e (ep_drop e0 s1) s' -> e0 = e -> bowed e s s').
  { intros s2 L2 WR E. assert (L1 : longer s1 (ep_drop e0 s1)) by (apply (steps_longer true), st_drop_ep, R1).
    eapply worn_bowed; [|eapply wr_trans; [apply wr_ep_drop|exact WR]|apply (Y_range _ _ Y1)|now apply HW]. eapply longer_trans; eauto. }
  assert (STAY : e0 <> e -> In (t, e) (pings s1)).
  { intro D. destruct H as [_ _ _ _ (l' & PP & _) _]. rewrite PP. apply in_or_app. left. apply filter_In. rewrite P. split; [exact IN|]. cbn.
    destruct (N.eqb_spec e e0); [congruence|reflexivity]. }
  assert (STAY2 : e0 <> e -> In (t, e) (pings (ep_drop e0 s1))).
  { intro D. unfold ep_drop. destruct (ep_held s1 e0); [auto|]. rewrite pings_ep_reset. destruct (d_timer _); [|auto].
    apply filter_In. split; [auto|]. cbn. destruct (N.eqb_spec e e0); [congruence|reflexivity]. }
  assert (ES2 : e0 <> e -> d_fault (es (ep_drop e0 s1) e) = d_fault (es s e) /\ d_ping (es (ep_drop e0 s1) e) = d_ping (es s e)).
  { intro D. destruct (HO D) as [<- <-]. unfold ep_drop. destruct (ep_held s1 e0); [auto|]. rewrite es_ep_reset.
    destruct (N.eqb_spec e e0); [congruence|auto]. }
  assert (NEXT : forall nx s', (forall x, nx = Some x -> exists t r, pings (ep_drop e0 s1) = (t, x) :: r /\ t <= now) ->
     ping_loop n now nx (ep_drop e0 s1) = Some s' -> bowed e s s').
  { intros nx' s2 NX2 X2. destruct (N.eq_dec e0 e) as [D|D].
    - assert (ST : steps true (ep_drop e0 s1) s2).
      { eapply st_ping_loop; [apply H2|rewrite W2; exact W| |exact X2]. intros x E. destruct (NX2 x E) as (t' & r' & PX & _).
        eapply timer_range; [apply H2|rewrite PX; now left]. }
      apply FIN; [eapply steps_longer; eauto|eapply wr_ping_loop; eauto|exact D].
    - destruct (ES2 D) as [F1 F2]. eapply same_bowed; [apply (H_cf _ _ _ _ H2)|exact F1|exact F2|].
      eapply IH; [exact Y2|rewrite W2; exact W|exact A2|congruence|unfold my_id; rewrite SE2; exact MI|now apply STAY2|exact LE|exact SP2|exact NX2|exact X2]. }
  assert (DONE : match pings s1 with [] => True | (t2, _) :: _ => now < t2 end -> e0 = e).
  { intro Q. destruct (N.eq_dec e0 e) as [D|D]; [exact D|exfalso]. pose proof (split_done now s1 (split_handled _ _ _ _ H SP) Q) as F.
    rewrite Forall_forall in F. specialize (F _ (STAY D)). cbn in F. lia. }
  destruct (pings s1) as [|[t2 e2] r] eqn:P1.
  - injection X as <-. apply FIN; [apply longer_refl|apply wr_refl|now apply DONE].
  - destruct (N.ltb_spec now t2) as [L2|L2].
    { injection X as <-. apply FIN; [apply longer_refl|apply wr_refl|now apply DONE]. }
    assert (NE : e2 <> e0).
    { destruct H as [_ _ _ _ (l' & PP & F) _]. rewrite PP in P1. assert (Q : In (t2, e2) (filter (fun p => negb (snd p =? e0)) (pings s) ++ l')) by (rewrite P1; now left).
      apply in_app_or in Q as [Q|Q].
      - apply filter_In in Q as [_ Q]. cbn in Q. intros ->. now rewrite N.eqb_refl in Q.
      - rewrite Forall_forall in F. apply F in Q as [Q _]. cbn in Q. lia. }
    destruct (negb (t2 =? t0)).
    + eapply NEXT; [|exact X]. discriminate.
    + destruct (N.eqb_spec e2 e0); [contradiction|]. eapply NEXT; [|exact X].
      intros x E. injection E as <-. unfold ep_drop. destruct (ep_held s1 e0); [eauto|]. rewrite pings_ep_reset, P1.
      destruct (d_timer _); [|eauto]. cbn [filter snd]. destruct (N.eqb_spec e2 e0); [contradiction|]. cbn. eauto.
Qed.

(** ** Across calls *)
Lemma settled_esteps s s' : Inv s -> noticed s -> esteps true s s' -> settled s' -> settled s.
Proof.
  intros I N E. induction E as [s|s1 s2 s3 E1 E2 IH]; [trivial|]. intro S.
  assert (S2 : settled s2) by (apply IH; [eapply estep_Inv; eauto|eapply estep_noticed; eauto|exact S]).
  revert S2 I N. clear - E1. destruct E1 as [v s B|a s s' M|s P R PI C PE LP|x s N|e s N A]; intros S I NO; trivial.
  - destruct (micro_longer _ _ _ M) as [l L]. exact (settled_back s s' l I (micro_grow _ _ _ I M) NO L S).
  - intros e X. apply (S e). now right.
Qed.
Lemma sound_does s s' : sound s -> does true s s' -> sound s'.
Proof.
  intros (I & H) [E G]. split; [apply G|]. apply (esteps_ind_inv true (fun s => noticed s /\ routed_ok s)) with (s := s); trivial. apply estep_ro.
Qed.
Lemma settled_does s s' : sound s -> does true s s' -> settled s' -> settled s.
Proof. intros (I & N & _) [E _]. now apply settled_esteps. Qed.
Lemma added_range e s : sound s -> In (TAdded e) (log s) -> 0 < e < nexte s.
Proof.
  intros (I & N & _) A. split; [|apply (I_log s I); now left].
  destruct (N.eq_dec e 0) as [->|]; [|lia]. exfalso.
  assert (X : In true (notified 0 (rev (log s)))); [|now rewrite (N_pos s N) in X]. apply added_notified. now apply in_rev in A.
Qed.
Lemma in_longer t s s' : longer s s' -> In t (log s) -> In t (log s').
Proof. intros [l E] G. rewrite E. apply in_or_app. now right. Qed.
