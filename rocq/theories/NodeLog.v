(** What the small steps of a node add to its trace. *)
From Verif Require Import Base Subnet Route Address NodeTypes NodeConn NodeCore NodeMsg Node
  NodeFrame NodeReset NodeInv NodeKeep NodeSteps NodeReach NodeSpec.
Local Open Scope N_scope.
Ltac Zify.zify_post_hook ::= idtac.

(** ** Closing connections *)
Definition closing (t : tr) : bool := match t with TInvalid _ | TClose _ => true | _ => false end.
Definition soft (s s' : node) : Prop :=
  (exists l, log s' = l ++ log s /\ Forall (fun t => closing t = true) l) /\
  fl_act s' = fl_act s /\ (fl_shut s = true -> fl_shut s' = true).
Lemma soft_refl s : soft s s.
Proof. split; [exists []; split; [reflexivity|constructor]|auto]. Qed.
Lemma soft_trans s1 s2 s3 : soft s1 s2 -> soft s2 s3 -> soft s1 s3.
Proof.
  intros [(l1 & E1 & F1) [A1 S1]] [(l2 & E2 & F2) [A2 S2]]. split; [|split; [congruence|auto]].
  exists (l2 ++ l1). rewrite E2, E1, app_assoc. split; [reflexivity|]. now apply Forall_app.
Qed.
Lemma soft_same s s' : log s' = log s -> fl_act s' = fl_act s -> fl_shut s' = fl_shut s -> soft s s'.
Proof. intros E1 E2 E3. split; [exists []; split; [exact E1|constructor]|split; [exact E2|now rewrite E3]]. Qed.
Lemma soft_emit t s : closing t = true -> soft s (emit t s).
Proof. intro Q. split; [exists [t]; split; [reflexivity|now constructor]|auto]. Qed.
Lemma soft_rm_timer c s : soft s (rm_timer c s).
Proof.
  unfold rm_timer. destruct (in_timer s c); [|apply soft_refl].
  destruct (is_connected s c); [now apply soft_same|].
  eapply soft_trans; [apply (soft_emit (TInvalid c)); reflexivity|now apply soft_same].
Qed.
Lemma soft_set_status c v s : soft s (set_status c v s).
Proof.
  unfold set_status. destruct (cst_eqb _ v); [apply soft_refl|].
  assert (H : soft s (on_c c (set_k_st v) s)) by now apply soft_same.
  destruct v; try exact H. eapply soft_trans; [exact H|apply soft_rm_timer].
Qed.
Lemma soft_shutdown z s : fl_act s = false -> soft s (shutdown z s).
Proof.
  intro A. unfold shutdown. destruct (fl_shut s) eqn:S; [apply soft_refl|]. cbn [fl_act set_fl_shut]. rewrite A.
  split; [exists []; split; [reflexivity|constructor]|split; [reflexivity|reflexivity]].
Qed.
Lemma soft_on_disconnect c s : soft s (on_disconnect c s).
Proof.
  unfold on_disconnect. destruct (_ && _ && _); [|apply soft_refl]. cbv zeta.
  assert (H : soft s (set_popr (sec s + x_retry (cf s)) (set_nst NLost s))) by now apply soft_same.
  cbn [fl_act set_popr set_nst]. destruct (fl_act s) eqn:A; [exact H|].
  eapply soft_trans; [exact H|now apply soft_shutdown].
Qed.
Lemma soft_disconnect c s : soft s (disconnect c s).
Proof.
  unfold disconnect. destruct (k_st (cs s c)); try apply soft_refl.
  all: cbv zeta; eapply soft_trans; [apply (soft_set_status c Disconnecting)|];
    set (s1 := set_status c Disconnecting s); clearbody s1;
    eapply soft_trans with (s2 := match k_kind (cs s1 c) with KNone => s1 | _ => emit (TClose c) s1 end);
    [destruct (k_kind _); try apply soft_refl; now apply soft_emit|];
    set (s2 := match k_kind (cs s1 c) with KNone => s1 | _ => _ end); clearbody s2;
    eapply soft_trans; [apply (soft_on_disconnect c)|];
    set (s3 := on_disconnect c s2); clearbody s3;
    eapply soft_trans; [|apply soft_set_status];
    destruct (k_proc _); now apply soft_same.
Qed.
Lemma soft_conn_close c s : soft s (conn_close c s).
Proof. unfold conn_close. eapply soft_trans; [apply soft_rm_timer|apply soft_disconnect]. Qed.
Lemma soft_conn_fin c s : soft s (conn_fin c s).
Proof. unfold conn_fin, gc_conn. destruct (_ || _); now apply soft_same. Qed.
Lemma soft_conn_reset_in c s : soft s (conn_reset_in c s).
Proof.
  unfold conn_reset_in. eapply soft_trans; [apply (soft_conn_close c)|].
  eapply soft_trans; [|apply soft_conn_fin]. now apply soft_same.
Qed.
Lemma soft_resets_in l s : soft s (resets_in l s).
Proof.
  revert s. induction l as [|c l IH]; intro s; [apply soft_refl|].
  change (resets_in (c :: l) s) with (resets_in l (conn_reset_in c s)).
  eapply soft_trans; [apply soft_conn_reset_in|apply IH].
Qed.
Lemma soft_clear_ping e s : soft s (clear_ping e s).
Proof. unfold clear_ping. destruct (d_timer _); now apply soft_same. Qed.
Lemma soft_gc_ep e s : soft s (gc_ep e s).
Proof. unfold gc_ep. destruct (_ || _); now apply soft_same. Qed.
Lemma soft_ep_reset b g e s : soft s (ep_reset b g e s).
Proof.
  rewrite ep_reset_eq. cbv zeta.
  set (s1 := match d_ctrl (es s e) with Some c => _ | None => s end).
  assert (H1 : soft s s1).
  { unfold s1. destruct (d_ctrl (es s e)); [|apply soft_refl].
    destruct (opt_eqb _ _); [now apply soft_same|].
    eapply soft_trans; [|apply soft_conn_reset_in]. now apply soft_same. }
  eapply soft_trans; [exact H1|]. clearbody s1. clear H1.
  eapply soft_trans; [apply (soft_resets_in (d_data (es s1 e)))|].
  set (s2 := resets_in _ s1). clearbody s2.
  set (s3 := on_e e _ s2). assert (H3 : soft s2 s3) by now apply soft_same.
  eapply soft_trans; [exact H3|]. clearbody s3. clear H3.
  eapply soft_trans; [apply (soft_clear_ping e)|].
  set (s4 := clear_ping e s3). clearbody s4.
  eapply soft_trans with (s2 := if g then s4 else gc_ep (d_ep (es s4 e)) s4).
  - destruct g; [apply soft_refl|apply soft_gc_ep].
  - now apply soft_same.
Qed.
Lemma soft_conn_reset c s : soft s (conn_reset c s).
Proof.
  unfold conn_reset. cbv zeta. eapply soft_trans; [apply (soft_conn_close c)|].
  set (s1 := conn_close c s). clearbody s1. eapply soft_trans; [|apply soft_conn_fin].
  destruct (k_bind (cs s1 c)) as [e|]; [|apply soft_refl].
  destruct (opt_eqb _ _); [apply soft_ep_reset|].
  destruct (memb _ _); [|apply soft_refl].
  set (s2 := on_e e _ _). assert (H2 : soft s1 s2) by now apply soft_same. clearbody s2.
  destruct (d_data (es s2 e)); [|exact H2].
  eapply soft_trans; [exact H2|apply soft_ep_reset].
Qed.
Lemma soft_addconn e c b s : soft s (fst (add_connection e c b s)).
Proof.
  unfold add_connection. destruct (k_bind (cs s c)); [apply soft_refl|]. cbn [fst]. cbv zeta.
  set (s1 := on_c c _ _). assert (H : soft s s1) by (unfold s1; destruct (_ || _); now apply soft_same). clearbody s1.
  destruct (k_st (cs s1 c)); try exact H. eapply soft_trans; [exact H|apply soft_set_status].
Qed.

(** ** Up and down *)
Lemma phase_snoc l t : phase_of (l ++ [t]) = phase_step (phase_of l) t.
Proof. unfold phase_of. now rewrite fold_left_app. Qed.
Lemma phase_soft l s : Forall (fun t => match t with TUp | TDown _ | TReset => False | _ => True end) l ->
  phase_of (rev (l ++ s)) = phase_of (rev s).
Proof.
  induction 1 as [|t l F _ IH]; [reflexivity|]. change (rev ((t :: l) ++ s)) with (rev (l ++ s) ++ [t]).
  rewrite phase_snoc, IH. destruct t; try contradiction; destruct (phase_of (rev s)) as [[]|]; reflexivity.
Qed.
Definition updown (s : node) : Prop :=
  match phase_of (rev (log s)) with
  | None => False
  | Some Quiet => fl_act s = false
  | Some Up => fl_act s = true
  | Some Down => fl_act s = true /\ fl_shut s = true
  end.
Definition plain (t : tr) : Prop := match t with TUp | TDown _ | TReset => False | _ => True end.
Lemma updown_log l s s' : log s' = l ++ log s -> Forall plain l -> fl_act s' = fl_act s ->
  (fl_shut s = true -> fl_shut s' = true) -> updown s -> updown s'.
Proof.
  intros L F A S. unfold updown. rewrite L, A, (phase_soft _ _ F).
  destruct (phase_of (rev (log s))) as [[]|]; trivial. intros [X Y]. auto.
Qed.
Lemma updown_same s s' : log s' = log s -> fl_act s' = fl_act s -> fl_shut s' = fl_shut s -> updown s -> updown s'.
Proof. intros L A S. apply (updown_log []); trivial. now rewrite S. Qed.
Lemma updown_soft s s' : soft s s' -> updown s -> updown s'.
Proof.
  intros [(l & L & F) [A S]]. apply (updown_log l); trivial. eapply Forall_impl; [|exact F].
  intros []; cbn; trivial; discriminate.
Qed.
Lemma updown_emit t s : plain t -> updown s -> updown (emit t s).
Proof. intros P. apply (updown_log [t]); auto. Qed.
Lemma updown_act s : updown s -> updown (on_actived s).
Proof.
  unfold on_actived. cbn [fl_act set_nst]. destruct (fl_act s) eqn:A; [now apply updown_same|].
  unfold updown. cbn [log emit set_log set_fl_act set_nst rev fl_act fl_shut]. rewrite phase_snoc.
  destruct (phase_of (rev (log s))) as [[]|]; cbn; intuition congruence.
Qed.
Lemma updown_shut z s : updown s -> updown (shutdown z s).
Proof.
  unfold shutdown. destruct (fl_shut s) eqn:S; [trivial|]. cbn [fl_act set_fl_shut]. destruct (fl_act s) eqn:A.
  - unfold updown. cbn [log emit set_log set_fl_shut rev fl_act fl_shut]. rewrite phase_snoc, A.
    destruct (phase_of (rev (log s))) as [[]|]; cbn; intuition congruence.
  - apply (updown_log []); auto.
Qed.
Lemma updown_rmep i ex s : updown s -> updown (fst (remove_endpoint i ex s)).
Proof.
  intro U. unfold remove_endpoint. destruct (is_parent s i).
  - destruct (parent s) as [p|]; [|exact U]. destruct (match ex with Some _ => _ | None => _ end); [exact U|]. cbv zeta. cbn [fst].
    set (s1 := emit _ _). assert (U1 : updown s1) by (apply updown_emit; [exact I|]; revert U; now apply updown_same).
    clearbody s1. destruct (fl_act s1); [exact U1|]. now apply updown_shut.
  - destruct (_ =? _); [exact U|]. destruct (remove_child _ _ _) as [[] t]; [|exact U].
    destruct (child_at _ _); [|exact U]. cbn [fst]. apply updown_emit; [exact I|]. revert U. now apply updown_same.
Qed.
Lemma micro_updown a s s' : micro a s s' -> updown s -> updown s'.
Proof.
  intro M. destruct M as [s s' C|v s V|s N|z s|t s T|s|c f s|l s|c m s|c z n s|c s|g e s|e c b s|e f s|i subs p h s|x s _ N A I0
    |i ex s|p s P|i ex t e s R C|s|l s|l s|l s|c s|c s|e s|x s|v s|e s|e s];
    try (now apply updown_same); try (apply updown_same; now (reflexivity || fr1)).
  - destruct C as (E1 & E2 & E3 & E4 & E5 & E6 & E7 & E8 & E9 & E10 & E11 & E12 & E13 & E14 & E15 & E16 & E17 & E18).
    now apply updown_same.
  - apply updown_act.
  - apply updown_shut.
  - apply updown_emit. destruct t; try exact I; contradiction.
  - destruct (push_log c m s) as [L|[r L]].
    + apply updown_same; trivial; fr1.
    + apply (updown_log [TSend c m (x_size (cf s) m) r]); trivial; [constructor; [exact I|constructor]|fr1|].
      intro X. rewrite <- X. fr1.
  - unfold written. destruct (linked s c); [|trivial]. intro U.
    apply (updown_emit (TWrote c z n)) in U; [|exact I]. cbv zeta.
    destruct (_ =? _)%Z; revert U; now apply updown_same.
  - apply updown_soft, soft_conn_reset.
  - apply updown_soft, soft_ep_reset.
  - apply updown_soft, soft_addconn.
  - unfold add_endpoint. destruct (fl_reset s); [trivial|]. destruct (_ && _).
    + destruct (parent s); [trivial|]. cbv zeta. cbn [fst]. intro U.
      assert (U1 : updown (add_ping x (set_parent (Some x) s))).
      { revert U. apply updown_same; fr1. }
      apply updown_emit; [exact I|]. destruct (_ && _); [now apply updown_act|exact U1].
    + destruct (_ && _); [trivial|]. destruct (insert_child _ _) as [[] t]; [|trivial]. cbn [fst]. intro U.
      assert (U1 : updown (emit (TAdded (e_ref x)) (set_routes t s))) by (apply updown_emit; [exact I|]; revert U; now apply updown_same).
      revert U1. apply updown_same; fr1.
  - apply updown_rmep.
  - intro U. apply updown_emit; [exact I|]. revert U. now apply updown_same.
  - intro U. apply updown_emit; [exact I|]. revert U. now apply updown_same.
  - unfold purge. intro U. assert (U1 : updown (set_routes [] s)) by (revert U; now apply updown_same). revert U1.
    generalize (set_routes [] s). induction (map _ (routes s)) as [|e l IH]; intros s0 U0; [exact U0|].
    cbn [fold_left]. apply IH. now apply updown_emit.
  - apply (updown_log [TFault e (e_id (d_ep (es s e))) (x_tol (cf s))]); trivial. constructor; [exact I|constructor].
  - apply (updown_log [TGood e]); trivial. constructor; [exact I|constructor].
Qed.
Lemma estep_updown s s' : estep true s s' -> updown s -> updown s'.
Proof.
  intros E. destruct E as [v s _|a s s' M|s P R PI C PE LP|x s N|e s N A]; try (now apply updown_same).
  - eapply micro_updown; eauto.
  - unfold updown. change (log (finish s)) with (TReset :: log s). cbn [rev]. rewrite phase_snoc.
    destruct (phase_of (rev (log s))) as [[]|]; cbn; trivial.
Qed.
Lemma reachable_ind (P : node -> Prop) : P new_node ->
  (forall s s', Inv s -> estep true s s' -> P s -> P s') -> forall s, reachable s -> P s.
Proof.
  intros P0 PS s R. apply reachable_does in R as [E _].
  apply (esteps_ind_inv true P PS new_node s); [apply new_node_Inv|exact E|exact P0].
Qed.
Theorem reachable_updown s : reachable s -> updown s.
Proof. apply reachable_ind; [reflexivity|]. intros s1 s2 _. apply estep_updown. Qed.
