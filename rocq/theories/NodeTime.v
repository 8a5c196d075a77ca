(** Deadlines of unfinished connections. *)
From Coq Require Import Sorted.
From Verif Require Import Base Subnet Route Address NodeTypes NodeConn NodeCore NodeMsg Node
  NodeFrame NodeReset NodeInv NodeKeep NodeSteps NodeCtx NodeReach NodeLog NodeAuth.
Local Open Scope N_scope.
Ltac Zify.zify_post_hook ::= idtac.

Notation less s s' := (sub (connecting s') (connecting s)).
Lemma less_same s s' : connecting s' = connecting s -> less s s'. Proof. intros ->. apply sub_refl. Qed.
Lemma less_shrink s s' : shrink s s' -> less s s'. Proof. now intros []. Qed.
Lemma micro_timers a s s' : micro a s s' -> less s s' \/ s' = fst (conn_create s).
Proof.
  intro M. destruct M as [s s' C|v s V|s N|z s|t s T|s|c f s|l s|c m s|c z n s|c s|g e s|e c b s|e f s|i subs p h s|x s _ N A I0|i ex s|p s P|i ex t e s R C|s|l s|l s|l s|c s|c s|e s|x s|v s|e s|e s];
    try (now right); left; try (now apply less_same); try (apply less_same; fr1); try assumption.
  - apply less_same. apply C.
  - apply less_shrink, shrink_creset.
  - apply less_shrink, shrink_ereset.
  - unfold add_connection. destruct (k_bind (cs s c)); [apply sub_refl|]. cbv zeta. cbn [fst].
    set (s1 := on_c c _ _). assert (E : less s s1) by (apply less_same; subst s1; destruct (_ || _); reflexivity). clearbody s1.
    eapply sub_trans; [|exact E]. destruct (k_st (cs s1 c)); try apply sub_refl. apply less_shrink, shrink_status.
  - apply less_same. unfold purge. change (connecting s) with (connecting (set_routes [] s)).
    generalize (map (fun p : range * ep => e_ref (snd p)) (routes s)). intro l.
    generalize (set_routes [] s). induction l as [|x l IH]; intros s1; cbn [fold_left]; [reflexivity|]. rewrite IH. reflexivity.
Qed.

(** Deadlines are in order, none is further away than the configured time, and there is
    none before [init]. *)
Record timed (s : node) : Prop := {
  D_sorted : StronglySorted N.le (map fst (connecting s));
  D_bound : forall p, In p (connecting s) -> fst p <= sec s + x_first (cf s);
  D_created : nst s = NCreated -> connecting s = [] }.
Lemma sub_sorted {A} (R : A -> A -> Prop) l l' : sub l l' -> StronglySorted R l' -> StronglySorted R l.
Proof.
  induction 1 as [|x l l' S IH|x l l' S IH]; intro H; trivial; inversion H; subst; auto.
  constructor; auto. rewrite Forall_forall in *. intros y Y. apply H3. eapply sub_in; eauto.
Qed.
Lemma sorted_snoc l (x : N) : StronglySorted N.le l -> (forall y, In y l -> y <= x) -> StronglySorted N.le (l ++ [x]).
Proof.
  induction 1 as [|y l S IH F]; intro H; cbn; [repeat constructor|]. constructor; [apply IH; intros; apply H; now right|].
  apply Forall_app. split; [exact F|]. constructor; [apply H; now left|constructor].
Qed.
Lemma created_fields s : let s' := fst (conn_create s) in
  sec s' = sec s /\ nst s' = nst s /\
  connecting s' = match nst s with NCreated => connecting s | _ => connecting s ++ [(sec s + x_first (cf s), nextc s)] end.
Proof. unfold conn_create. cbn [fst]. unfold add_timer. cbn. destruct (nst s) eqn:N; cbn; rewrite ?N; auto. Qed.
Lemma micro_sec a s s' : micro a s s' -> sec s <= sec s'.
Proof.
  intro M. assert (E : sec s' = sec s \/ sec s <= sec s'); [|destruct E; lia].
  destruct M as [s s' C|v s V|s N|z s|t s T|s|c f s|l s|c m s|c z n s|c s|g e s|e c b s|e f s|i subs p h s|x s _ N A I0|i ex s|p s P|i ex t e s R C|s|l s|l s|l s|c s|c s|e s|x s|v s|e s|e s];
    try (now right); left; try reflexivity; try fr1; [apply C|].
  unfold purge. change (sec s) with (sec (set_routes [] s)). generalize (map (fun p : range * ep => e_ref (snd p)) (routes s)). intro l.
  generalize (set_routes [] s). induction l as [|x l IH]; intros s1; cbn [fold_left]; [reflexivity|]. rewrite IH. reflexivity.
Qed.
Lemma micro_timed a s s' : Inv s -> micro a s s' -> timed s -> timed s'.
Proof.
  intros I M [D1 D2 D3]. pose proof (micro_sec _ _ _ M) as SE. pose proof (micro_cf _ _ _ M) as CF.
  pose proof (micro_grow _ _ _ I M) as G. destruct (micro_timers _ _ _ M) as [L|E].
  - constructor.
    + eapply sub_sorted; [apply sub_map, L|exact D1].
    + intros p P. eapply sub_in in P; [|exact L]. apply D2 in P. rewrite CF. lia.
    + intro N. assert (N0 : nst s = NCreated) by (destruct (nst s) eqn:Q; trivial; elim (G_nst _ _ G); trivial; rewrite Q; discriminate).
      apply D3 in N0. rewrite N0 in L. now inversion L.
  - subst s'. destruct (created_fields s) as (E1 & E2 & E3). constructor; rewrite ?E1, ?E2, ?E3, ?CF.
    + destruct (nst s); trivial; rewrite map_app; apply sorted_snoc; trivial; intros y Y; apply in_map_iff in Y as (p & <- & P); now apply D2.
    + intros p P. destruct (nst s); auto; apply in_app_or in P as [P|[<-|[]]]; auto; cbn; lia.
    + intro N. rewrite N. auto.
Qed.
Lemma estep_timed s s' : Inv s -> estep false s s' -> timed s -> timed s'.
Proof.
  intros I E. destruct E as [v s B|a s s' M|s P R PI C PE LP|x s N|e s N A].
  - discriminate.
  - eapply micro_timed; eauto.
  - intros _. constructor; unfold finish; cbn; rewrite C; [constructor|contradiction|trivial].
  - intros [D1 D2 D3]. specialize (D3 N). constructor; cbn; rewrite D3; [constructor|contradiction|trivial].
  - intros []. now constructor.
Qed.

(** Histories in which [start] is never given a time before one given earlier. *)
Fixpoint steady (t : N) (evs : list event) : Prop :=
  match evs with
  | [] => True
  | EStart now :: r => t <= now /\ steady now r
  | EProc now _ :: r => steady (N.max t now) r
  | _ :: r => steady t r
  end.

Definition late (now : N) (s : node) : Prop := now <= sec s /\ forall p, In p (connecting s) -> now <= fst p.
Lemma micro_late now a s s' : micro a s s' -> late now s -> late now s'.
Proof.
  intros M [S L]. pose proof (micro_sec _ _ _ M) as SE. split; [lia|]. destruct (micro_timers _ _ _ M) as [D|E].
  - intros p P. apply L. eapply sub_in; eauto.
  - subst s'. destruct (created_fields s) as (_ & _ & E). rewrite E. intros p P.
    destruct (nst s); auto; apply in_app_or in P as [P|[<-|[]]]; auto; cbn; lia.
Qed.
Lemma estep_late now s s' : estep false s s' -> timed s -> late now s -> late now s'.
Proof.
  intro E. destruct E as [v s B|a s s' M|s P R PI C PE LP|x s N|e s N A]; intros D L.
  - discriminate.
  - eapply micro_late; eauto.
  - destruct L as [S _]. split; [exact S|]. unfold finish. cbn. rewrite C. contradiction.
  - destruct L as [S L]. now split.
  - destruct L as [S L]. now split.
Qed.
Lemma does_timed s s' : Inv s -> does false s s' -> timed s -> timed s'.
Proof. intros I [E _]. revert s s' I E. apply (esteps_ind_inv false timed). intros. eapply estep_timed; eauto. Qed.
Lemma does_late now s s' : Inv s -> does false s s' -> timed s /\ late now s -> timed s' /\ late now s'.
Proof.
  intros I [E _]. revert s s' I E. apply (esteps_ind_inv false (fun s => timed s /\ late now s)).
  intros s s' I E [T L]. split; [eapply estep_timed; eauto|eapply estep_late; eauto].
Qed.

(** ** The check of deadlines *)
Lemma sweep_next c s : Inv s ->
  match connecting (conn_reset c s) with
  | (t', c') :: r' => if c' =? c then set_connecting r' (emit (TInvalid c) (conn_reset c s)) else conn_reset c s
  | [] => conn_reset c s
  end = conn_reset c s.
Proof.
  intro I. destruct (connecting (conn_reset c s)) as [|[t' c'] r'] eqn:E; [reflexivity|].
  destruct (N.eqb_spec c' c) as [->|]; [|reflexivity].
  assert (X : In (t', c) (connecting (conn_reset c s))) by (rewrite E; now left).
  rewrite timer_conn_reset in X by now apply Inv_listed. apply filter_In in X as [_ X]. unfold victims, memb in X. cbn in X. now rewrite N.eqb_refl in X.
Qed.
Lemma Inv_conn_reset c s : Inv s -> Inv (conn_reset c s).
Proof. intro I. eapply steps_Inv; [apply (st_creset true)|exact I]. Qed.
Lemma filter_shorter {A} (f : A -> bool) x l : f x = false -> (length (filter f (x :: l)) <= length l)%nat.
Proof.
  intro E. cbn. rewrite E. clear. induction l as [|y l IH]; cbn; [lia|]. destruct (f y); cbn; lia.
Qed.
Lemma sweep_head t c r s : Inv s -> connecting s = (t, c) :: r -> (length (connecting (conn_reset c s)) <= length r)%nat.
Proof.
  intros I E. rewrite timer_conn_reset by now apply Inv_listed. rewrite E. apply filter_shorter. cbn.
  now rewrite N.eqb_refl.
Qed.
Lemma sweep_late now n : forall s, Inv s -> StronglySorted N.le (map fst (connecting s)) -> (length (connecting s) <= n)%nat ->
  forall p, In p (connecting (sweep n now s)) -> now <= fst p.
Proof.
  induction n as [|n IH]; intros s I S L p; cbn [sweep].
  - destruct (connecting s); [contradiction|cbn in L; lia].
  - destruct (connecting s) as [|[t c] r] eqn:C; [rewrite C; contradiction|].
    cbn in S, L. inversion S as [|? ? S' F]; subst.
    destruct (is_connected s c) eqn:K.
    + apply IH; [|exact S'|cbn; lia]. eapply steps_Inv; [apply (st_timers true r s)|exact I]. rewrite C. constructor. apply sub_refl.
    + destruct (N.leb_spec now t) as [T|T].
      * rewrite C. intros [<-|P]; [exact T|]. rewrite Forall_forall in F. specialize (F (fst p) (in_map fst _ _ P)). lia.
      * rewrite sweep_next by exact I. apply IH; [now apply Inv_conn_reset| |].
        -- rewrite timer_conn_reset by now apply Inv_listed. eapply sub_sorted; [apply sub_map, sub_filter|]. now rewrite C.
        -- pose proof (sweep_head _ _ _ _ I C). lia.
Qed.
Lemma proc_late n now feed s s' : good s -> timed s -> proc n now feed s = Some s' -> timed s' /\ late now s'.
Proof.
  intros G T. unfold proc. set (s1 := if sec s <? now then set_sec now s else s).
  assert (D : does false s s1 /\ now <= sec s1).
  { subst s1. destruct (N.ltb_spec (sec s) now) as [L|L]; [|split; [now apply does_refl|exact L]].
    split; [apply does_sec; [exact G|lia]|cbn; lia]. }
  destruct D as [D W]. clearbody s1. cbv zeta. pose proof (does_timed _ _ (proj1 G) D T) as T1. apply good_of in D. clear T G s.
  assert (C : nst s1 = NCreated \/ nst s1 <> NCreated) by (destruct (nst s1); auto; right; discriminate).
  destruct C as [C|C].
  { rewrite C. intros [= <-]. split; [exact T1|]. split; [exact W|]. rewrite (D_created _ T1 C). contradiction. }
  intro X. assert (X' : (if fl_shut s1 then Some (reset (fst (dispatch_self s1)))
      else
        match ping_loop n now None (parent_op now (sweep (length (connecting (fold_left proc_one feed s1))) now (fold_left proc_one feed s1))) with
        | None => None
        | Some s => Some (stop_if_shut (collect (fst (dispatch_self s))))
        end) = Some s') by (destruct (nst s1); [now elim C|exact X..]).
  clear X. destruct (fl_shut s1).
  - injection X' as <-. pose proof (does_dispatch_self false s1 D) as D1. pose proof (does_timed _ _ (proj1 D) D1 T1) as T2.
    assert (W2 : now <= sec (fst (dispatch_self s1))) by (destruct (kc_dispatch_self s1) as [_ _ E _]; now rewrite E).
    apply good_of in D1. destruct (idle_flags _ (proj2 D1)) as (F & _).
    assert (R : does false (fst (dispatch_self s1)) (reset (fst (dispatch_self s1)))) by (apply does_reset, D1).
    pose proof (does_timed _ _ (proj1 D1) R T2) as T3. split; [exact T3|]. split.
    + assert (Q : forall a b, does false a b -> Inv a -> now <= sec a -> now <= sec b).
      { clear. intros a b [E _] I. revert a b I E. apply (esteps_ind_inv false (fun s => now <= sec s)). intros s s' I E L.
        destruct E as [v s B|a s s' M|s P R PI C PE LP|x s N|e s N A]; trivial; [discriminate|]. pose proof (micro_sec _ _ _ M). lia. }
      eapply Q; [exact R|apply D1|exact W2].
    + rewrite (D_created _ T3); [contradiction|]. unfold reset. now rewrite F.
  - assert (D1 : does false s1 (fold_left proc_one feed s1)).
    { eapply does_steps; [exact D|apply st_procs_all; [apply D|exact C]|]. apply kc_fold, kc_proc_one. }
    assert (W1 : now <= sec (fold_left proc_one feed s1)).
    { destruct (kc_fold proc_one kc_proc_one feed s1) as [_ _ E _]. now rewrite E. }
    pose proof (does_timed _ _ (proj1 D) D1 T1) as T2.
    set (s2 := fold_left proc_one feed s1) in *. clearbody s2. apply good_of in D1. clear T1 D C W.
    set (k := length _) in X'.
    assert (D2 : does false s2 (sweep k now s2)) by (eapply (does_steps false true); [exact D1|apply st_sweep, D1|apply kc_sweep]).
    assert (W2 : now <= sec (sweep k now s2)) by (destruct (kc_sweep k now s2) as [_ _ E _]; now rewrite E).
    assert (L : late now (sweep k now s2)) by (split; [exact W2|intros p; apply sweep_late; [apply D1|apply T2|subst k; lia]]).
    pose proof (conj (does_timed _ _ (proj1 D1) D2 T2) L) as TL. clear L T2.
    set (s3 := sweep k now s2) in *. clearbody s3. apply good_of in D2.
    assert (D3 : does false s3 (parent_op now s3)) by (eapply (does_steps false true); [exact D2|apply st_parent_op, D2|apply kc_parent_op]).
    assert (W3 : now <= sec (parent_op now s3)) by (destruct (kc_parent_op now s3) as [_ _ E _]; now rewrite E).
    apply (does_late now _ _ (proj1 D2) D3) in TL.
    set (s4 := parent_op now s3) in *. clearbody s4. apply good_of in D3.
    destruct (ping_loop n now None s4) as [s5|] eqn:PL; [|discriminate]. injection X' as <-.
    assert (D4 : does false s4 s5).
    { eapply (does_steps false true); [exact D3| |eapply kc_ping_loop; exact PL].
      apply (st_ping_loop true now n None s4 s5); [apply D3|exact W3|intros ? X; discriminate X|exact PL]. }
    apply (does_late now _ _ (proj1 D3) D4) in TL. apply good_of in D4.
    apply (does_late now _ _ (proj1 D4) (does_round false _ D4)) in TL. exact TL.
Qed.

(** The clock only moves in [start] and [proc]. *)
Lemma sec_kc s s' v : kc s s' -> sec s = v -> sec s' = v. Proof. intros [_ _ E _] <-. exact E. Qed.
Ltac sec1 := match goal with |- sec ?b = sec ?a => apply (C_sec a b); solve [kgo] end.
Lemma sec_drain n : forall s, kc s (drain n s).
Proof. induction n as [|n IH]; intro s; cbn [drain]; kgo. Qed.
Lemma sec_fold {A} (f : node -> A -> node) : (forall s x, sec (f s x) = sec s) -> forall l s, sec (fold_left f l s) = sec s.
Proof. intros H l. induction l as [|x l IH]; intro s; [reflexivity|]. cbn. now rewrite IH. Qed.
Lemma sec_drop_connecting n : forall s, sec (drop_connecting n s) = sec s.
Proof.
  induction n as [|n IH]; intro s; cbn [drop_connecting]; [reflexivity|]. destruct (connecting s) as [|[t c] r]; [reflexivity|].
  rewrite IH. assert (K : sec (conn_reset c s) = sec s) by (sec1).
  set (s1 := conn_reset c s) in *. clearbody s1. rewrite <- K. destruct (connecting s1) as [|[t' c'] r']; [reflexivity|]. now destruct (c' =? c).
Qed.
Lemma sec_finish_connects l : forall s, sec (finish_connects l s) = sec s.
Proof.
  induction l as [|x l IH]; intro s; cbn [finish_connects]; [reflexivity|]. destruct (take_orc s) as [s1 z] eqn:E; assert (K : sec s1 = sec s) by (unfold take_orc in E; destruct (orc s); injection E as <- _; reflexivity); rewrite IH, <- K; sec1.
Qed.
Lemma sec_finish_listens l : forall s, sec (finish_listens l s) = sec s.
Proof.
  induction l as [|x l IH]; intro s; cbn [finish_listens]; [reflexivity|]. destruct (take_orc s) as [s1 z] eqn:E; assert (K : sec s1 = sec s) by (unfold take_orc in E; destruct (orc s); injection E as <- _; reflexivity); rewrite IH, <- K; sec1.
Qed.
Lemma sec_reset s : sec (reset s) = sec s.
Proof.
  unfold reset. destruct (fl_reset s); [reflexivity|]. cbv zeta.
  cbn [sec emit set_log set_qdata set_qcmd set_fl_reset set_fl_gcreset set_fl_act set_fl_preg set_fl_shut set_fl_self set_fl_gce set_fl_gcc set_nst].
  rewrite sec_finish_listens, sec_finish_connects. cbn [sec set_pings].
  rewrite (sec_fold (fun s p => clear_ping (snd p) (ep_reset None false (snd p) s))) by (intros; sec1).
  cbn [sec set_gcc]. rewrite (sec_fold drop_ep) by (intros; apply C_sec, kc_drop_ep). cbn [sec set_gce set_fl_gcreset].
  match goal with |- sec (match ?x with Some e => _ | None => ?s1 end) = _ => transitivity (sec s1); [destruct x; [sec1|reflexivity]|] end.
  rewrite sec_drop_connecting. rewrite (sec_fold drop_ep) by (intros; apply C_sec, kc_drop_ep).
  rewrite (sec_fold (fun s e => emit (TRemoved e) s)) by reflexivity. cbn [sec set_routes].
  match goal with |- sec (match ?x with Some e => _ | None => ?s1 end) = _ => transitivity (sec s1); [destruct x; [sec1|reflexivity]|] end.
  cbn [sec set_procs]. rewrite (sec_fold (fun s p => conn_reset (snd p) s)) by (intros; sec1).
  destruct (sec_drain (S (2 * length (qcmd (emit TBegin (set_fl_reset true s))) + length (qdata (emit TBegin (set_fl_reset true s))))) (emit TBegin (set_fl_reset true s))) as [_ _ E _]. exact E.
Qed.
Definition clock_after (ev : event) (t : N) : N :=
  match ev with EStart now => N.max t now | EProc now _ => N.max t now | _ => t end.
Lemma sec_step n ev s s' : good s -> step n ev s = Some s' -> sec s' <= clock_after ev (sec s).
Proof.
  intros G. unfold step, step_ret. destruct ev as [i x|now|a|a|a i|i|to ty b w q|to l q|z| |now feed|l|i|o l]; cbn [option_map fst clock_after];
    try (intros [= <-]).
  - enough (E : sec (fst (init i x s)) = sec s) by (rewrite E; lia). unfold init. cbv zeta.
    set (s1 := match nst s with NCreated => s | _ => reset s end). assert (E : sec s1 = sec s) by (subst s1; destruct (nst s); trivial; apply sec_reset).
    clearbody s1. rewrite <- E. destruct (endpoint_subnets _ _) as [subs|]; [|reflexivity].
    change (sec s1) with (sec (set_cf x s1)). generalize (set_cf x s1). intro s2.
    pose proof (kc_ep_create i subs (x_pid x) (x_host x) s2) as K. destruct (ep_create _ _ _ _ s2) as [s3 e]. cbn [fst] in *.
    destruct K as [_ _ K _]. rewrite <- K. cbn [sec set_nst set_qdata set_qcmd]. 
    match goal with |- sec (clear_ping ?e ?s) = _ => transitivity (sec s); [sec1|] end.
    destruct (self s2); [|reflexivity]. change (sec s3) with (sec (set_self (Some e) s3)). sec1.
  - enough (E : sec (fst (start now s)) = sec s \/ sec (fst (start now s)) = now) by (destruct E; lia).
    unfold start. destruct (nst s); [now left|right; match goal with |- sec ?b = _ => apply (C_sec (set_sec now s) b); kgo end..].
  - destruct (kc_listen a s) as [_ _ E _]. lia.
  - destruct (kc_connect a s) as [_ _ E _]. lia.
  - destruct (get_endpoint s i) as [e|]; cbn [fst]; [|lia]. destruct (kc_connect_ep a (e_ref e) s) as [_ _ E _]. lia.
  - destruct (kc_node_disconnect i s) as [_ _ E _]. lia.
  - destruct (kc_send_data to ty b w q s) as [_ _ E _]. lia.
  - destruct (kc_send_custom to l q s) as [_ _ E _]. lia.
  - destruct (kc_shutdown z s) as [_ _ E _]. lia.
  - rewrite sec_reset. lia.
  - unfold proc. set (s1 := if sec s <? now then set_sec now s else s).
    assert (W : sec s1 = N.max (sec s) now) by (subst s1; destruct (N.ltb_spec (sec s) now); cbn; lia).
    assert (G1 : good s1) by (subst s1; destruct (N.ltb_spec (sec s) now); [apply (does_sec true now s G); lia|exact G]).
    rewrite <- W. clearbody s1. clear G s W. cbv zeta. assert (Z : sec s1 <= sec s1) by lia. intro X.
    assert (X' : (match nst s1 with NCreated => Some s1 | _ => if fl_shut s1 then Some (reset (fst (dispatch_self s1)))
      else
        match ping_loop n now None (parent_op now (sweep (length (connecting (fold_left proc_one feed s1))) now (fold_left proc_one feed s1))) with
        | None => None
        | Some s => Some (stop_if_shut (collect (fst (dispatch_self s))))
        end end) = Some s').
    { destruct (nst s1); [now injection X as <-|..]; (destruct (fl_shut s1); [now injection X as <-|]);
      destruct (ping_loop _ _ _ _); try discriminate; now injection X as <-. }
    clear X. assert (C : nst s1 = NCreated \/ nst s1 <> NCreated) by (destruct (nst s1); auto; right; discriminate).
    destruct C as [C|C]; [rewrite C in X'; now injection X' as <-|].
    assert (X : (if fl_shut s1 then Some (reset (fst (dispatch_self s1)))
      else
        match ping_loop n now None (parent_op now (sweep (length (connecting (fold_left proc_one feed s1))) now (fold_left proc_one feed s1))) with
        | None => None
        | Some s => Some (stop_if_shut (collect (fst (dispatch_self s))))
        end) = Some s') by (destruct (nst s1); [now elim C|exact X'..]).
    clear X'.
    destruct (fl_shut s1).
    { injection X as <-. rewrite sec_reset. destruct (kc_dispatch_self s1) as [_ _ E _]. lia. }
    destruct (ping_loop _ _ _ _) as [s5|] eqn:PL; [|discriminate]. injection X as <-.
    assert (K5 : kc s1 s5).
    { eapply kc_trans; [|eapply kc_ping_loop; exact PL]. eapply kc_trans; [|apply kc_parent_op]. eapply kc_trans; [|apply kc_sweep]. apply kc_fold, kc_proc_one. }
    assert (K6 : kc s1 (fst (dispatch_self s5))) by (eapply kc_trans; [exact K5|apply kc_dispatch_self]).
    clear K5. set (s6 := fst (dispatch_self s5)) in *. clearbody s6.
    pose proof (idle_kc _ _ K6 (proj2 G1)) as D6. destruct (idle_flags s6 D6) as (_ & _ & _ & F1 & F2).
    destruct (kc_collect s6 F1 F2) as [_ _ E7 _]. destruct K6 as [_ _ E6 _].
    unfold stop_if_shut. destruct (fl_shut (collect s6)); rewrite ?sec_reset; lia.
  - unfold poll. destruct (fl_shut s).
    + rewrite sec_reset. destruct (kc_dispatch_self s) as [_ _ E _]. lia.
    + assert (K6 : kc s (fst (dispatch_self (fold_left (fun s i => io_step i s) l s)))).
      { eapply kc_trans; [|apply kc_dispatch_self]. apply (kc_fold (fun s i => io_step i s)). intros. apply kc_io_step. }
      set (s6 := fst (dispatch_self _)) in *. clearbody s6.
      pose proof (idle_kc _ _ K6 (proj2 G)) as D6. destruct (idle_flags s6 D6) as (_ & _ & _ & F1 & F2).
      destruct (kc_collect s6 F1 F2) as [_ _ E7 _]. destruct K6 as [_ _ E6 _].
      unfold stop_if_shut. destruct (fl_shut (collect s6)); rewrite ?sec_reset; lia.
  - destruct (kc_io_step i s) as [_ _ E _]. lia.
  - cbn. lia.
Qed.

Fixpoint clock (t : N) (evs : list event) : N := match evs with [] => t | ev :: r => clock (clock_after ev t) r end.
Lemma steady_run n evs : forall t s s', good s -> timed s -> sec s <= t -> steady t evs -> run n evs s = Some s' ->
  good s' /\ timed s' /\ sec s' <= clock t evs.
Proof.
  induction evs as [|ev r IH]; intros t s s' G T L S R; cbn [run clock] in *; [injection R as <-; auto|].
  destruct (step n ev s) as [s1|] eqn:E; [|discriminate].
  pose proof (sec_step _ _ _ _ G E) as SE.
  assert (SE' : sec s1 <= clock_after ev t) by (destruct ev; cbn in *; lia).
  assert (PU : punctual false ev s) by (destruct ev; cbn in *; auto; right; lia).
  pose proof (does_step false n ev s s1 G PU E) as D.
  eapply IH; [apply D|eapply does_timed; [apply G|exact D|exact T]|exact SE'| |exact R].
  destruct ev; cbn in *; trivial. destruct S as [S1 S2]. now rewrite N.max_r.
Qed.
Lemma timed_new : timed new_node.
Proof. constructor; cbn; [constructor|contradiction|reflexivity]. Qed.
Lemma run_app n l1 : forall l2 s, run n (l1 ++ l2) s = match run n l1 s with Some s1 => run n l2 s1 | None => None end.
Proof. induction l1 as [|x l IH]; intros l2 s; [reflexivity|]. cbn. destruct (step n x s); [apply IH|reflexivity]. Qed.
Lemma steady_app l1 : forall t l2, steady t (l1 ++ l2) -> steady t l1.
Proof. induction l1 as [|[] l IH]; intros t l2; cbn; eauto. intros [? ?]. split; eauto. Qed.
Theorem steady_timed n evs s : steady 0 evs -> run n evs new_node = Some s -> good s /\ timed s.
Proof.
  intros S R. destruct (steady_run n evs 0 new_node s good_new timed_new) as (A & B & _); auto. cbn. lia.
Qed.
Theorem steady_proc n evs now feed s : steady 0 evs -> run n (evs ++ [EProc now feed]) new_node = Some s -> late now s.
Proof.
  intros S R. rewrite run_app in R. destruct (run n evs new_node) as [s1|] eqn:R1; [|discriminate].
  destruct (steady_timed _ _ _ S R1) as [G T]. cbn [run] in R. unfold step, step_ret in R.
  destruct (proc n now feed s1) as [s2|] eqn:P; [|discriminate]. injection R as <-. now apply (proc_late _ _ _ _ _ G T P).
Qed.

(** How often a connection was reported as invalid. *)
Definition is_inv (c : N) (t : tr) : bool := match t with TInvalid c' => c' =? c | _ => false end.
Definition invs (c : N) (s : node) : nat := length (filter (is_inv c) (log s)).
Definition told (c : N) (k : nat) (s : node) : Prop :=
  (k <= invs c s)%nat /\ is_connected s c = false /\ ((in_timer s c = true) \/ (k < invs c s)%nat).
Definition fades (s s' : node) : Prop := forall c k, told c k s -> told c k s'.
Lemma fades_refl s : fades s s. Proof. now intros c k. Qed.
Lemma fades_trans s1 s2 s3 : fades s1 s2 -> fades s2 s3 -> fades s1 s3. Proof. intros A B c k T. auto. Qed.
Lemma invs_grow c s s' : (exists l, log s' = l ++ log s) -> (invs c s <= invs c s')%nat.
Proof. intros [l E]. unfold invs. rewrite E, filter_app, app_length. lia. Qed.
Lemma fades_same s s' : connecting s' = connecting s -> (exists l, log s' = l ++ log s) ->
  (forall c, is_connected s c = false -> is_connected s' c = false) -> fades s s'.
Proof.
  intros E1 E2 E3 c k (A & B & C). pose proof (invs_grow c s s' E2). split; [lia|]. split; [auto|].
  destruct C as [C|C]; [left|right; lia]. unfold in_timer. now rewrite E1.
Qed.
Lemma is_connected_cs s s' c : cs s' c = cs s c -> is_connected s' c = is_connected s c.
Proof. unfold is_connected. now intros ->. Qed.
Lemma fades_rm_timer x s : fades s (rm_timer x s).
Proof.
  intros c k (A & B & C). unfold rm_timer. destruct (in_timer s x) eqn:T; [|now split].
  destruct (N.eq_dec x c) as [->|D].
  - rewrite B. unfold told. assert (E : invs c (set_connecting (filter (fun p => negb (snd p =? c)) (connecting (emit (TInvalid c) s))) (emit (TInvalid c) s)) = S (invs c s)).
    { unfold invs, emit. cbn. now rewrite N.eqb_refl. }
    rewrite E. split; [lia|]. split; [exact B|right; lia].
  - set (s1 := if is_connected s x then s else emit (TInvalid x) s).
    assert (E : invs c s1 = invs c s /\ connecting s1 = connecting s /\ is_connected s1 c = is_connected s c).
    { subst s1. destruct (is_connected s x); auto. split; [|auto]. unfold invs, emit. cbn. destruct (N.eqb_spec x c); [contradiction|reflexivity]. }
    destruct E as (E1 & E2 & E3). clearbody s1. unfold told.
    change (invs c (set_connecting (filter (fun p => negb (snd p =? x)) (connecting s1)) s1)) with (invs c s1).
    change (is_connected (set_connecting (filter (fun p => negb (snd p =? x)) (connecting s1)) s1) c) with (is_connected s1 c).
    rewrite E1, E3. split; [exact A|]. split; [exact B|]. destruct C as [C|C]; [left|now right].
    unfold in_timer in *. cbn. rewrite E2. apply existsb_exists in C as (p & P & Q). apply existsb_exists. exists p. split; [|exact Q].
    apply filter_In. split; [exact P|]. apply N.eqb_eq in Q. rewrite Q. destruct (N.eqb_spec c x); [congruence|reflexivity].
Qed.
Lemma soft_log s s' : soft s s' -> exists l, log s' = l ++ log s.
Proof. intros [(l & E & _) _]. now exists l. Qed.
Lemma fades_soft s s' : soft s s' -> connecting s' = connecting s ->
  (forall c, is_connected s c = false -> is_connected s' c = false) -> fades s s'.
Proof. intros S E C. apply fades_same; [exact E|now apply soft_log|exact C]. Qed.
Lemma fades_disconnect x s : fades s (disconnect x s).
Proof.
  apply fades_soft; [apply soft_disconnect|apply timer_disconnect|].
  intros c. unfold is_connected. rewrite cs_disconnect. destruct (N.eqb_spec c x) as [->|]; auto.
  unfold closed. destruct (k_st (cs s x)) eqn:E; rewrite ?E; trivial.
Qed.
Lemma fades_unbind x s : fades s (on_c x (set_k_bind None) s).
Proof.
  apply fades_same; [reflexivity|exists []; reflexivity|]. intro c. unfold is_connected. rewrite cs_on_c. destruct (N.eqb_spec c x) as [->|]; auto.
Qed.
Lemma fades_conn_fin x s : fades s (conn_fin x s).
Proof.
  apply fades_soft; [apply soft_conn_fin|apply (keeps (f := connecting))|].
  intro c. unfold is_connected, conn_fin. rewrite cs_on_c. unfold gc_conn. destruct (_ || _); destruct (N.eqb_spec c x) as [->|]; auto.
Qed.
Lemma fades_conn_close c s : fades s (conn_close c s).
Proof. unfold conn_close. eapply fades_trans; [apply fades_rm_timer|apply fades_disconnect]. Qed.
Lemma fades_conn_reset_in c s : fades s (conn_reset_in c s).
Proof.
  unfold conn_reset_in. eapply fades_trans; [apply (fades_conn_close c)|].
  eapply fades_trans; [apply fades_unbind|apply fades_conn_fin].
Qed.
Lemma fades_resets_in l s : fades s (resets_in l s).
Proof.
  revert s. induction l as [|c l IH]; intro s; [apply fades_refl|].
  change (resets_in (c :: l) s) with (resets_in l (conn_reset_in c s)).
  eapply fades_trans; [apply fades_conn_reset_in|apply IH].
Qed.
Lemma fades_eq s s' : connecting s' = connecting s -> log s' = log s -> cs s' = cs s -> fades s s'.
Proof. intros A B C. apply fades_same; [exact A|now exists []|]. intro c. unfold is_connected. now rewrite C. Qed.
Lemma fades_ep_reset b g e s : fades s (ep_reset b g e s).
Proof.
  rewrite ep_reset_eq. cbv zeta.
  set (s1 := match d_ctrl (es s e) with Some c => _ | None => s end).
  assert (H1 : fades s s1).
  { unfold s1. destruct (d_ctrl (es s e)); [|apply fades_refl].
    destruct (opt_eqb _ _); [apply fades_unbind|].
    eapply fades_trans; [apply fades_unbind|apply fades_conn_reset_in]. }
  eapply fades_trans; [exact H1|]. clearbody s1. clear H1.
  eapply fades_trans; [apply (fades_resets_in (d_data (es s1 e)))|].
  set (s2 := resets_in _ s1). clearbody s2.
  set (s3 := on_e e _ s2). assert (H3 : fades s2 s3) by now apply fades_eq.
  eapply fades_trans; [exact H3|]. clearbody s3. clear H3.
  eapply fades_trans with (s2 := clear_ping e s3); [apply fades_eq; fr1|].
  set (s4 := clear_ping e s3). clearbody s4.
  eapply fades_trans with (s2 := if g then s4 else gc_ep (d_ep (es s4 e)) s4).
  - destruct g; [apply fades_refl|apply fades_eq; fr1].
  - now apply fades_eq.
Qed.
Lemma fades_conn_reset c s : fades s (conn_reset c s).
Proof.
  unfold conn_reset. cbv zeta. eapply fades_trans; [apply (fades_conn_close c)|].
  set (s1 := conn_close c s). clearbody s1. eapply fades_trans; [|apply fades_conn_fin].
  destruct (k_bind (cs s1 c)) as [e|]; [|apply fades_refl].
  destruct (opt_eqb _ _); [apply fades_ep_reset|].
  destruct (memb _ _); [|apply fades_refl].
  set (s2 := on_e e _ _). assert (H2 : fades s1 s2).
  { eapply fades_trans; [apply (fades_unbind c)|now apply fades_eq]. }
  clearbody s2. destruct (d_data (es s2 e)); [|exact H2].
  eapply fades_trans; [exact H2|apply fades_ep_reset].
Qed.
Lemma fades_sweep now n : forall s, Inv s -> fades s (sweep n now s).
Proof.
  induction n as [|n IH]; intros s I; cbn [sweep]; [apply fades_refl|].
  destruct (connecting s) as [|[t c] r] eqn:C; [apply fades_refl|].
  destruct (is_connected s c) eqn:K.
  - assert (I' : Inv (set_connecting r s)) by (eapply steps_Inv; [apply (st_timers true r s)|exact I]; rewrite C; apply sub_tail).
    eapply fades_trans; [|now apply IH]. intros x k (A & B & D). split; [exact A|]. split; [exact B|].
    destruct D as [D|D]; [left|now right]. unfold in_timer in *. cbn. rewrite C in D. cbn in D.
    destruct (N.eqb_spec c x) as [->|]; [congruence|exact D].
  - destruct (now <=? t); [apply fades_refl|]. rewrite sweep_next by exact I.
    eapply fades_trans; [apply fades_conn_reset|]. apply IH. now apply Inv_conn_reset.
Qed.
Lemma in_timer_in s c : in_timer s c = true <-> exists t, In (t, c) (connecting s).
Proof.
  unfold in_timer. rewrite existsb_exists. split.
  - intros ([t x] & P & E). apply N.eqb_eq in E. cbn in E. subst. now exists t.
  - intros [t P]. exists (t, c). split; [exact P|apply N.eqb_refl].
Qed.
Lemma sweep_sub now n : forall s, Inv s -> sub (connecting (sweep n now s)) (connecting s).
Proof.
  induction n as [|n IH]; intros s I; cbn [sweep]; [apply sub_refl|].
  destruct (connecting s) as [|[t c] r] eqn:C; [rewrite C; apply sub_refl|].
  destruct (is_connected s c) eqn:K.
  - assert (I' : Inv (set_connecting r s)) by (eapply steps_Inv; [apply (st_timers true r s)|exact I]; rewrite C; apply sub_tail).
    eapply sub_trans; [now apply IH|]. cbn. apply sub_tail.
  - destruct (now <=? t); [rewrite C; apply sub_refl|]. rewrite sweep_next by exact I.
    eapply sub_trans; [apply IH; now apply Inv_conn_reset|]. rewrite timer_conn_reset by now apply Inv_listed. rewrite C. apply sub_filter.
Qed.
Lemma timer_unique s t t' c : Inv s -> In (t, c) (connecting s) -> In (t', c) (connecting s) -> t' = t.
Proof.
  intros I P C. pose proof (I_conning s I) as ND. clear - P C ND. induction (connecting s) as [|[a b] l IH]; [contradiction|].
  cbn in ND. apply NoDup_cons_iff in ND as [N1 N2]. destruct P as [P|P], C as [C|C].
  - congruence.
  - injection P as -> ->. elim N1. now apply (in_map snd) in C.
  - injection C as -> ->. elim N1. now apply (in_map snd) in P.
  - now apply IH.
Qed.
Lemma sweep_told now s t c : Inv s -> timed s -> In (t, c) (connecting s) -> t < now -> is_connected s c = false ->
  (invs c s < invs c (sweep (length (connecting s)) now s))%nat.
Proof.
  intros I T P L K.
  destruct (fades_sweep now (length (connecting s)) s I c (invs c s)) as (A & B & [C|C]); trivial.
  - split; [lia|]. split; [exact K|left]. apply in_timer_in. now exists t.
  - exfalso. apply in_timer_in in C as [t' C].
    pose proof (sweep_late now _ s I (D_sorted s T) (le_n _) _ C) as L'. cbn in L'.
    eapply sub_in in C; [|now apply sweep_sub].
    pose proof (timer_unique s t t' c I P C). lia.
Qed.
Lemma st_resetted k : conn_ok k -> k_st (resetted k) = Disconnected.
Proof. intros (A & B & C & D). unfold resetted, finished, closed. destruct (k_st k) eqn:E; cbn; rewrite ?E; trivial; congruence. Qed.
(** Expired, unfinished connections are closed. *)
Lemma sweep_closed now s t c : Inv s -> timed s -> In (t, c) (connecting s) -> t < now -> is_connected s c = false ->
  k_st (cs (sweep (length (connecting s)) now s) c) = Disconnected.
Proof.
  intros I T P L K.
  assert (H : forall n s, Inv s -> is_connected s c = false ->
     (in_timer s c = true \/ k_st (cs s c) = Disconnected) ->
     in_timer (sweep n now s) c = true \/ k_st (cs (sweep n now s) c) = Disconnected).
  { clear. induction n as [|n IH]; intros s I K H; cbn [sweep]; trivial.
    destruct (connecting s) as [|[t x] r] eqn:C; [exact H|].
    destruct (is_connected s x) eqn:K'.
    - apply IH; [eapply steps_Inv; [apply (st_timers true r s)|exact I]; rewrite C; apply sub_tail|exact K|].
      destruct H as [H|H]; [left|now right]. unfold in_timer in *. cbn. rewrite C in H. cbn in H.
      destruct (N.eqb_spec x c) as [->|]; [congruence|exact H].
    - destruct (now <=? t); [exact H|]. rewrite sweep_next by exact I.
      pose proof (cs_conn_reset c x s (Inv_listed s I)) as CS. pose proof (timer_conn_reset x s (Inv_listed s I)) as TM.
      apply IH; [now apply Inv_conn_reset| |].
      + unfold is_connected in *. rewrite CS. destruct (memb c (victims s x)); [|exact K].
        now rewrite st_resetted by apply (I_conn s I).
      + rewrite CS. destruct (memb c (victims s x)) eqn:M.
        * right. now rewrite st_resetted by apply (I_conn s I).
        * destruct H as [H|H]; [left|now right]. apply in_timer_in in H as [t' H]. apply in_timer_in. exists t'. rewrite TM.
          apply filter_In. split; [exact H|]. cbn [snd]. now rewrite M. }
  destruct (H (length (connecting s)) s I K) as [C|C]; trivial.
  - left. apply in_timer_in. now exists t.
  - exfalso. apply in_timer_in in C as [t' C].
    pose proof (sweep_late now _ s I (D_sorted s T) (le_n _) _ C) as L'. cbn in L'.
    eapply sub_in in C; [|now apply sweep_sub]. pose proof (timer_unique s t t' c I P C). lia.
Qed.
(** No other connection is affected, except those bound to the same endpoint. *)
Lemma sweep_only now n : forall s c, Inv s -> cs (sweep n now s) c <> cs s c ->
  exists t c0, In (t, c0) (connecting s) /\ t < now /\ is_connected s c0 = false /\
    (c = c0 \/ exists e, k_bind (cs s c) = Some e /\ k_bind (cs s c0) = Some e).
Proof.
  induction n as [|n IH]; intros s c I H; cbn [sweep] in H; [now elim H|].
  destruct (connecting s) as [|[t x] r] eqn:C; [now elim H|].
  destruct (is_connected s x) eqn:K.
  - assert (I' : Inv (set_connecting r s)) by (eapply steps_Inv; [apply (st_timers true r s)|exact I]; rewrite C; apply sub_tail).
    destruct (IH _ c I' H) as (t0 & c0 & A & B). exists t0, c0. split; [now right|exact B].
  - destruct (N.leb_spec now t) as [L|L]; [now elim H|]. rewrite sweep_next in H by exact I.
    pose proof (fun y => cs_conn_reset y x s (Inv_listed s I)) as CS. pose proof (timer_conn_reset x s (Inv_listed s I)) as TM.
    destruct (memb c (victims s x)) eqn:M.
    + exists t, x. split; [now left|]. split; [exact L|]. split; [exact K|].
      apply memb_in in M. unfold victims in M. destruct M as [M|M]; [now left|].
      destruct (k_bind (cs s x)) as [e|] eqn:B; [|contradiction]. destruct (drops (es s e) x); [|contradiction].
      right. exists e. split; [|reflexivity]. now apply (I_bind s I).
    + assert (E : cs (conn_reset x s) c = cs s c) by (rewrite CS, M; reflexivity).
      rewrite <- E in H. destruct (IH _ c (Inv_conn_reset x s I) H) as (t0 & c0 & A & B & D & F).
      rewrite TM in A. apply filter_In in A as [A V]. cbn [snd] in V. apply negb_true_iff in V.
      assert (E0 : cs (conn_reset x s) c0 = cs s c0) by (rewrite CS, V; reflexivity).
      exists t0, c0. rewrite E, E0 in F. unfold is_connected in D. rewrite E0 in D. rewrite C in A. auto.
Qed.

(** ** The whole call *)
Notation longer s s' := (exists l, log s' = l ++ log s).
Lemma longer_refl s : longer s s. Proof. now exists []. Qed.
Lemma longer_trans s1 s2 s3 : longer s1 s2 -> longer s2 s3 -> longer s1 s3.
Proof. intros [a A] [b B]. exists (b ++ a). now rewrite B, A, app_assoc. Qed.
Lemma longer_same s s' : log s' = log s -> longer s s'. Proof. now exists []. Qed.
Lemma micro_longer a s s' : micro a s s' -> longer s s'.
Proof.
  intro M. destruct M as [s s' C|v s V|s N|z s|t s T|s|c f s|l s|c m s|c z n s|c s|g e s|e c b s|e f s|i subs p h s|x s _ N A I0|i ex s|p s P|i ex t e s R C|s|l s|l s|l s|c s|c s|e s|x s|v s|e s|e s];
    try (now apply longer_same); try (apply longer_same; fr1).
  - destruct C as (_ & _ & _ & _ & _ & _ & _ & _ & _ & _ & _ & _ & _ & _ & _ & _ & E & E'). first [now apply longer_same|idtac].
  - unfold on_actived. cbn [fl_act set_nst]. destruct (fl_act s); [now apply longer_same|now exists [TUp]].
  - unfold shutdown. destruct (fl_shut s); [apply longer_refl|]. cbn [fl_act set_fl_shut]. destruct (fl_act s); [now exists [TDown z]|now apply longer_same].
  - now exists [t].
  - destruct (push_log c m s) as [L|[r L]]; [now apply longer_same|now exists [TSend c m (x_size (cf s) m) r]].
  - unfold written. destruct (linked s c); [|apply longer_refl]. cbv zeta. exists [TWrote c z n]. now destruct (_ =? _)%Z.
  - apply soft_log, soft_conn_reset.
  - apply soft_log, soft_ep_reset.
  - apply soft_log, soft_addconn.
  - unfold add_endpoint. destruct (fl_reset s); [apply longer_refl|]. destruct (_ && _).
    + destruct (parent s) eqn:P; [apply longer_refl|]. cbv zeta. cbn [fst]. set (s2 := add_ping x (set_parent (Some x) s)).
      assert (Q : log s2 = log s) by (subst s2; fr1). clearbody s2.
      destruct (_ && _); [unfold on_actived; cbn [fl_act set_nst]; destruct (fl_act s2)|].
      * exists [TAdded (e_ref x)]. cbn. now rewrite Q.
      * exists [TAdded (e_ref x); TUp]. cbn. now rewrite Q.
      * exists [TAdded (e_ref x)]. cbn. now rewrite Q.
    + destruct (_ && _); [apply longer_refl|]. destruct (insert_child _ _) as [[] t]; [|apply longer_refl]. cbn [fst].
      exists [TAdded (e_ref x)]. cbn. fr1.
  - unfold remove_endpoint. destruct (is_parent s i).
    + destruct (parent s) as [p|] eqn:P; [|apply longer_refl]. destruct (match ex with Some _ => _ | None => _ end); [apply longer_refl|]. cbv zeta. cbn [fst].
      unfold fatal_shutdown, shutdown. cbn [fl_shut emit set_log set_popr set_nst set_parent set_fl_shut fl_act].
      exists [TRemoved (e_ref p)]. destruct (fl_act s) eqn:A; try destruct (fl_shut s); reflexivity.
    + destruct (_ =? _); [apply longer_refl|]. destruct (remove_child _ _ _) as [[] t] eqn:R; [|apply longer_refl].
      destruct (child_at _ _) eqn:C; [|apply longer_refl]. cbn [fst]. now exists [TRemoved (e_ref e)].
  - now exists [TRemoved (e_ref p)].
  - now exists [TRemoved (e_ref e)].
  - unfold purge. change (log s) with (log (set_routes [] s)). generalize (map (fun p : range * ep => e_ref (snd p)) (routes s)). intro l.
    generalize (set_routes [] s). induction l as [|x l IH]; intros s1; cbn [fold_left]; [apply longer_refl|].
    eapply longer_trans; [|apply IH]. now exists [TRemoved x].
  - now exists [TFault e (e_id (d_ep (es s e))) (x_tol (cf s))].
  - now exists [TGood e].
Qed.
Lemma does_longer b s s' : Inv s -> does b s s' -> longer s s'.
Proof.
  intros I [E _]. induction E as [s|s1 s2 s3 E1 E2 IH]; [apply longer_refl|].
  eapply longer_trans; [|apply IH; eapply estep_Inv; eauto].
  destruct E1 as [v s B|a s s' M|s P R PI C PE LP|x s N|e s N A]; try (now apply longer_same); [eapply micro_longer; eauto|]. now exists [TReset].
Qed.

(** New deadlines lie the configured time after the present. *)
Definition dated (s0 s : node) : Prop := timed s /\ sec s0 <= sec s /\
  forall p, In p (connecting s) -> In p (connecting s0) \/ sec s0 + x_first (cf s) <= fst p <= sec s + x_first (cf s).
Lemma estep_dated s0 s s' : Inv s -> estep false s s' -> dated s0 s -> dated s0 s'.
Proof.
  intros I E (T & L & H). split; [eapply estep_timed; eauto|].  revert T L H I.
  destruct E as [v s B|a s s' M|s P R PI C PE LP|x s N|e s N A]; intros T L H I.
  - discriminate.
  - pose proof (micro_sec _ _ _ M) as SE. split; [lia|]. rewrite (micro_cf _ _ _ M). destruct (micro_timers _ _ _ M) as [D|E].
    + intros p P. eapply sub_in in P; [|exact D]. destruct (H p P); [now left|right; lia].
    + subst s'. destruct (created_fields s) as (E1 & _ & E). rewrite E, E1. intros p P.
      destruct (nst s); auto; apply in_app_or in P as [P|[<-|[]]]; auto; right; cbn; lia.
  - split; [exact L|]. unfold finish. cbn. rewrite C. contradiction.
  - split; [exact L|]. cbn. rewrite (D_created _ T N). contradiction.
  - now split.
Qed.
Theorem does_dated s s' : Inv s -> timed s -> does false s s' -> dated s s'.
Proof.
  intros I T [E _]. apply (esteps_ind_inv false (dated s)) with (s := s); trivial.
  - intros. eapply estep_dated; eauto.
  - split; [exact T|]. split; [lia|]. intros. now left.
Qed.
