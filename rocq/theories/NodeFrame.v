(** Which fields of the node the basic operations leave alone.  Generated: one
    equation per operation and untouched field. *)
From Verif Require Import Base Subnet Route Address NodeTypes NodeConn NodeCore.
Local Open Scope N_scope.

Definition resets_in (l : list N) (s : node) : node := fold_left (fun s c => conn_reset_in c s) l s.

(** [f] does not see the operation [g] (or [h], which also returns a value). *)
Class Keeps {T} (f : node -> T) (g : node -> node) : Prop := keeps s : f (g s) = f s.
Class Keeps2 {T B} (f : node -> T) (h : node -> node * B) : Prop := keeps2 s : f (fst (h s)) = f s.

(** Peels one layer off the state in [field state = R]. *)
Ltac frame1 :=
  lazymatch goal with
  | |- ?x = ?x => reflexivity
  | H : ?g |- ?g => exact H
  | |- ?f (fst (let x := ?a in @?b x)) = ?r => frame_let f a r;
      change (f (fst (b a)) = r); let H := fresh in intro H; revert H; generalize a; intros ? H; cbv beta
  | |- ?f (let x := ?a in @?b x) = ?r => frame_let f a r;
      change (f (b a) = r); let H := fresh in intro H; revert H; generalize a; intros ? H; cbv beta
  | |- ?f (fst (match ?x with _ => _ end)) = ?r => frame_case f x r
  | |- ?f (match ?x with _ => _ end) = ?r => frame_case f x r
  | |- ?f (fst (?a, ?b)) = ?r => change (f a = r)

  | |- ?f (set_cf _ ?s) = ?r => change (f s = r)
  | |- ?f (set_nst _ ?s) = ?r => change (f s = r)
  | |- ?f (set_self _ ?s) = ?r => change (f s = r)
  | |- ?f (set_parent _ ?s) = ?r => change (f s = r)
  | |- ?f (set_routes _ ?s) = ?r => change (f s = r)
  | |- ?f (set_fl_reset _ ?s) = ?r => change (f s = r)
  | |- ?f (set_fl_gcreset _ ?s) = ?r => change (f s = r)
  | |- ?f (set_fl_act _ ?s) = ?r => change (f s = r)
  | |- ?f (set_fl_preg _ ?s) = ?r => change (f s = r)
  | |- ?f (set_fl_shut _ ?s) = ?r => change (f s = r)
  | |- ?f (set_fl_self _ ?s) = ?r => change (f s = r)
  | |- ?f (set_fl_gce _ ?s) = ?r => change (f s = r)
  | |- ?f (set_fl_gcc _ ?s) = ?r => change (f s = r)
  | |- ?f (set_sec _ ?s) = ?r => change (f s = r)
  | |- ?f (set_popr _ ?s) = ?r => change (f s = r)
  | |- ?f (set_connecting _ ?s) = ?r => change (f s = r)
  | |- ?f (set_pings _ ?s) = ?r => change (f s = r)
  | |- ?f (set_pend _ ?s) = ?r => change (f s = r)
  | |- ?f (set_lpend _ ?s) = ?r => change (f s = r)
  | |- ?f (set_gce _ ?s) = ?r => change (f s = r)
  | |- ?f (set_gcc _ ?s) = ?r => change (f s = r)
  | |- ?f (set_procs _ ?s) = ?r => change (f s = r)
  | |- ?f (set_seqn _ ?s) = ?r => change (f s = r)
  | |- ?f (set_qdata _ ?s) = ?r => change (f s = r)
  | |- ?f (set_qcmd _ ?s) = ?r => change (f s = r)
  | |- ?f (set_cs _ ?s) = ?r => change (f s = r)
  | |- ?f (set_nextc _ ?s) = ?r => change (f s = r)
  | |- ?f (set_es _ ?s) = ?r => change (f s = r)
  | |- ?f (set_nexte _ ?s) = ?r => change (f s = r)
  | |- ?f (set_orc _ ?s) = ?r => change (f s = r)
  | |- ?f (set_salts _ ?s) = ?r => change (f s = r)
  | |- ?f (set_log _ ?s) = ?r => change (f s = r)
  | |- ?f (emit _ ?s) = ?r => change (f s = r)
  | |- ?f (on_c _ _ ?s) = ?r => change (f s = r)
  | |- ?f (on_e _ _ ?s) = ?r => change (f s = r)
  | |- ?f (fst (?h ?s)) = ?r => refine (eq_trans (keeps2 (f := f) (h := h) s) _)
  | |- ?f (?g ?s) = ?r => refine (eq_trans (keeps (f := f) (g := g) s) _)
  end
with frame_let f a r :=
  lazymatch type of a with
  | node => let H := fresh in assert (H : f a = r) by (repeat frame1); revert H
  | _ => let H := fresh in assert (H : True) by exact I; revert H
  end
with frame_case f x r :=
  lazymatch type of x with
  | (node * _)%type =>
      let E := fresh in let H := fresh in let s1 := fresh "s" in
      assert (H : f (fst x) = r) by (repeat frame1);
      revert H; case x; intros s1 ? H; cbn [fst] in H
  | _ => case x; intros
  end.

#[export] Instance kp_cf_rm_timer c : Keeps cf (rm_timer c).
Proof. intro s. generalize (eq_refl (cf s)). generalize (cf s) at 2 3. intros R HR. unfold rm_timer. repeat frame1. Qed.
#[export] Instance kp_nst_rm_timer c : Keeps nst (rm_timer c).
Proof. intro s. generalize (eq_refl (nst s)). generalize (nst s) at 2 3. intros R HR. unfold rm_timer. repeat frame1. Qed.
#[export] Instance kp_self_rm_timer c : Keeps self (rm_timer c).
Proof. intro s. generalize (eq_refl (self s)). generalize (self s) at 2 3. intros R HR. unfold rm_timer. repeat frame1. Qed.
#[export] Instance kp_parent_rm_timer c : Keeps parent (rm_timer c).
Proof. intro s. generalize (eq_refl (parent s)). generalize (parent s) at 2 3. intros R HR. unfold rm_timer. repeat frame1. Qed.
#[export] Instance kp_routes_rm_timer c : Keeps routes (rm_timer c).
Proof. intro s. generalize (eq_refl (routes s)). generalize (routes s) at 2 3. intros R HR. unfold rm_timer. repeat frame1. Qed.
#[export] Instance kp_fl_reset_rm_timer c : Keeps fl_reset (rm_timer c).
Proof. intro s. generalize (eq_refl (fl_reset s)). generalize (fl_reset s) at 2 3. intros R HR. unfold rm_timer. repeat frame1. Qed.
#[export] Instance kp_fl_gcreset_rm_timer c : Keeps fl_gcreset (rm_timer c).
Proof. intro s. generalize (eq_refl (fl_gcreset s)). generalize (fl_gcreset s) at 2 3. intros R HR. unfold rm_timer. repeat frame1. Qed.
#[export] Instance kp_fl_act_rm_timer c : Keeps fl_act (rm_timer c).
Proof. intro s. generalize (eq_refl (fl_act s)). generalize (fl_act s) at 2 3. intros R HR. unfold rm_timer. repeat frame1. Qed.
#[export] Instance kp_fl_preg_rm_timer c : Keeps fl_preg (rm_timer c).
Proof. intro s. generalize (eq_refl (fl_preg s)). generalize (fl_preg s) at 2 3. intros R HR. unfold rm_timer. repeat frame1. Qed.
#[export] Instance kp_fl_shut_rm_timer c : Keeps fl_shut (rm_timer c).
Proof. intro s. generalize (eq_refl (fl_shut s)). generalize (fl_shut s) at 2 3. intros R HR. unfold rm_timer. repeat frame1. Qed.
#[export] Instance kp_fl_self_rm_timer c : Keeps fl_self (rm_timer c).
Proof. intro s. generalize (eq_refl (fl_self s)). generalize (fl_self s) at 2 3. intros R HR. unfold rm_timer. repeat frame1. Qed.
#[export] Instance kp_fl_gce_rm_timer c : Keeps fl_gce (rm_timer c).
Proof. intro s. generalize (eq_refl (fl_gce s)). generalize (fl_gce s) at 2 3. intros R HR. unfold rm_timer. repeat frame1. Qed.
#[export] Instance kp_fl_gcc_rm_timer c : Keeps fl_gcc (rm_timer c).
Proof. intro s. generalize (eq_refl (fl_gcc s)). generalize (fl_gcc s) at 2 3. intros R HR. unfold rm_timer. repeat frame1. Qed.
#[export] Instance kp_sec_rm_timer c : Keeps sec (rm_timer c).
Proof. intro s. generalize (eq_refl (sec s)). generalize (sec s) at 2 3. intros R HR. unfold rm_timer. repeat frame1. Qed.
#[export] Instance kp_popr_rm_timer c : Keeps popr (rm_timer c).
Proof. intro s. generalize (eq_refl (popr s)). generalize (popr s) at 2 3. intros R HR. unfold rm_timer. repeat frame1. Qed.
#[export] Instance kp_pings_rm_timer c : Keeps pings (rm_timer c).
Proof. intro s. generalize (eq_refl (pings s)). generalize (pings s) at 2 3. intros R HR. unfold rm_timer. repeat frame1. Qed.
#[export] Instance kp_pend_rm_timer c : Keeps pend (rm_timer c).
Proof. intro s. generalize (eq_refl (pend s)). generalize (pend s) at 2 3. intros R HR. unfold rm_timer. repeat frame1. Qed.
#[export] Instance kp_lpend_rm_timer c : Keeps lpend (rm_timer c).
Proof. intro s. generalize (eq_refl (lpend s)). generalize (lpend s) at 2 3. intros R HR. unfold rm_timer. repeat frame1. Qed.
#[export] Instance kp_gce_rm_timer c : Keeps gce (rm_timer c).
Proof. intro s. generalize (eq_refl (gce s)). generalize (gce s) at 2 3. intros R HR. unfold rm_timer. repeat frame1. Qed.
#[export] Instance kp_gcc_rm_timer c : Keeps gcc (rm_timer c).
Proof. intro s. generalize (eq_refl (gcc s)). generalize (gcc s) at 2 3. intros R HR. unfold rm_timer. repeat frame1. Qed.
#[export] Instance kp_procs_rm_timer c : Keeps procs (rm_timer c).
Proof. intro s. generalize (eq_refl (procs s)). generalize (procs s) at 2 3. intros R HR. unfold rm_timer. repeat frame1. Qed.
#[export] Instance kp_seqn_rm_timer c : Keeps seqn (rm_timer c).
Proof. intro s. generalize (eq_refl (seqn s)). generalize (seqn s) at 2 3. intros R HR. unfold rm_timer. repeat frame1. Qed.
#[export] Instance kp_qdata_rm_timer c : Keeps qdata (rm_timer c).
Proof. intro s. generalize (eq_refl (qdata s)). generalize (qdata s) at 2 3. intros R HR. unfold rm_timer. repeat frame1. Qed.
#[export] Instance kp_qcmd_rm_timer c : Keeps qcmd (rm_timer c).
Proof. intro s. generalize (eq_refl (qcmd s)). generalize (qcmd s) at 2 3. intros R HR. unfold rm_timer. repeat frame1. Qed.
#[export] Instance kp_cs_rm_timer c : Keeps cs (rm_timer c).
Proof. intro s. generalize (eq_refl (cs s)). generalize (cs s) at 2 3. intros R HR. unfold rm_timer. repeat frame1. Qed.
#[export] Instance kp_nextc_rm_timer c : Keeps nextc (rm_timer c).
Proof. intro s. generalize (eq_refl (nextc s)). generalize (nextc s) at 2 3. intros R HR. unfold rm_timer. repeat frame1. Qed.
#[export] Instance kp_es_rm_timer c : Keeps es (rm_timer c).
Proof. intro s. generalize (eq_refl (es s)). generalize (es s) at 2 3. intros R HR. unfold rm_timer. repeat frame1. Qed.
#[export] Instance kp_nexte_rm_timer c : Keeps nexte (rm_timer c).
Proof. intro s. generalize (eq_refl (nexte s)). generalize (nexte s) at 2 3. intros R HR. unfold rm_timer. repeat frame1. Qed.
#[export] Instance kp_orc_rm_timer c : Keeps orc (rm_timer c).
Proof. intro s. generalize (eq_refl (orc s)). generalize (orc s) at 2 3. intros R HR. unfold rm_timer. repeat frame1. Qed.
#[export] Instance kp_salts_rm_timer c : Keeps salts (rm_timer c).
Proof. intro s. generalize (eq_refl (salts s)). generalize (salts s) at 2 3. intros R HR. unfold rm_timer. repeat frame1. Qed.

#[export] Instance kp_cf_set_status c v : Keeps cf (set_status c v).
Proof. intro s. generalize (eq_refl (cf s)). generalize (cf s) at 2 3. intros R HR. unfold set_status. repeat frame1. Qed.
#[export] Instance kp_nst_set_status c v : Keeps nst (set_status c v).
Proof. intro s. generalize (eq_refl (nst s)). generalize (nst s) at 2 3. intros R HR. unfold set_status. repeat frame1. Qed.
#[export] Instance kp_self_set_status c v : Keeps self (set_status c v).
Proof. intro s. generalize (eq_refl (self s)). generalize (self s) at 2 3. intros R HR. unfold set_status. repeat frame1. Qed.
#[export] Instance kp_parent_set_status c v : Keeps parent (set_status c v).
Proof. intro s. generalize (eq_refl (parent s)). generalize (parent s) at 2 3. intros R HR. unfold set_status. repeat frame1. Qed.
#[export] Instance kp_routes_set_status c v : Keeps routes (set_status c v).
Proof. intro s. generalize (eq_refl (routes s)). generalize (routes s) at 2 3. intros R HR. unfold set_status. repeat frame1. Qed.
#[export] Instance kp_fl_reset_set_status c v : Keeps fl_reset (set_status c v).
Proof. intro s. generalize (eq_refl (fl_reset s)). generalize (fl_reset s) at 2 3. intros R HR. unfold set_status. repeat frame1. Qed.
#[export] Instance kp_fl_gcreset_set_status c v : Keeps fl_gcreset (set_status c v).
Proof. intro s. generalize (eq_refl (fl_gcreset s)). generalize (fl_gcreset s) at 2 3. intros R HR. unfold set_status. repeat frame1. Qed.
#[export] Instance kp_fl_act_set_status c v : Keeps fl_act (set_status c v).
Proof. intro s. generalize (eq_refl (fl_act s)). generalize (fl_act s) at 2 3. intros R HR. unfold set_status. repeat frame1. Qed.
#[export] Instance kp_fl_preg_set_status c v : Keeps fl_preg (set_status c v).
Proof. intro s. generalize (eq_refl (fl_preg s)). generalize (fl_preg s) at 2 3. intros R HR. unfold set_status. repeat frame1. Qed.
#[export] Instance kp_fl_shut_set_status c v : Keeps fl_shut (set_status c v).
Proof. intro s. generalize (eq_refl (fl_shut s)). generalize (fl_shut s) at 2 3. intros R HR. unfold set_status. repeat frame1. Qed.
#[export] Instance kp_fl_self_set_status c v : Keeps fl_self (set_status c v).
Proof. intro s. generalize (eq_refl (fl_self s)). generalize (fl_self s) at 2 3. intros R HR. unfold set_status. repeat frame1. Qed.
#[export] Instance kp_fl_gce_set_status c v : Keeps fl_gce (set_status c v).
Proof. intro s. generalize (eq_refl (fl_gce s)). generalize (fl_gce s) at 2 3. intros R HR. unfold set_status. repeat frame1. Qed.
#[export] Instance kp_fl_gcc_set_status c v : Keeps fl_gcc (set_status c v).
Proof. intro s. generalize (eq_refl (fl_gcc s)). generalize (fl_gcc s) at 2 3. intros R HR. unfold set_status. repeat frame1. Qed.
#[export] Instance kp_sec_set_status c v : Keeps sec (set_status c v).
Proof. intro s. generalize (eq_refl (sec s)). generalize (sec s) at 2 3. intros R HR. unfold set_status. repeat frame1. Qed.
#[export] Instance kp_popr_set_status c v : Keeps popr (set_status c v).
Proof. intro s. generalize (eq_refl (popr s)). generalize (popr s) at 2 3. intros R HR. unfold set_status. repeat frame1. Qed.
#[export] Instance kp_pings_set_status c v : Keeps pings (set_status c v).
Proof. intro s. generalize (eq_refl (pings s)). generalize (pings s) at 2 3. intros R HR. unfold set_status. repeat frame1. Qed.
#[export] Instance kp_pend_set_status c v : Keeps pend (set_status c v).
Proof. intro s. generalize (eq_refl (pend s)). generalize (pend s) at 2 3. intros R HR. unfold set_status. repeat frame1. Qed.
#[export] Instance kp_lpend_set_status c v : Keeps lpend (set_status c v).
Proof. intro s. generalize (eq_refl (lpend s)). generalize (lpend s) at 2 3. intros R HR. unfold set_status. repeat frame1. Qed.
#[export] Instance kp_gce_set_status c v : Keeps gce (set_status c v).
Proof. intro s. generalize (eq_refl (gce s)). generalize (gce s) at 2 3. intros R HR. unfold set_status. repeat frame1. Qed.
#[export] Instance kp_gcc_set_status c v : Keeps gcc (set_status c v).
Proof. intro s. generalize (eq_refl (gcc s)). generalize (gcc s) at 2 3. intros R HR. unfold set_status. repeat frame1. Qed.
#[export] Instance kp_procs_set_status c v : Keeps procs (set_status c v).
Proof. intro s. generalize (eq_refl (procs s)). generalize (procs s) at 2 3. intros R HR. unfold set_status. repeat frame1. Qed.
#[export] Instance kp_seqn_set_status c v : Keeps seqn (set_status c v).
Proof. intro s. generalize (eq_refl (seqn s)). generalize (seqn s) at 2 3. intros R HR. unfold set_status. repeat frame1. Qed.
#[export] Instance kp_qdata_set_status c v : Keeps qdata (set_status c v).
Proof. intro s. generalize (eq_refl (qdata s)). generalize (qdata s) at 2 3. intros R HR. unfold set_status. repeat frame1. Qed.
#[export] Instance kp_qcmd_set_status c v : Keeps qcmd (set_status c v).
Proof. intro s. generalize (eq_refl (qcmd s)). generalize (qcmd s) at 2 3. intros R HR. unfold set_status. repeat frame1. Qed.
#[export] Instance kp_nextc_set_status c v : Keeps nextc (set_status c v).
Proof. intro s. generalize (eq_refl (nextc s)). generalize (nextc s) at 2 3. intros R HR. unfold set_status. repeat frame1. Qed.
#[export] Instance kp_es_set_status c v : Keeps es (set_status c v).
Proof. intro s. generalize (eq_refl (es s)). generalize (es s) at 2 3. intros R HR. unfold set_status. repeat frame1. Qed.
#[export] Instance kp_nexte_set_status c v : Keeps nexte (set_status c v).
Proof. intro s. generalize (eq_refl (nexte s)). generalize (nexte s) at 2 3. intros R HR. unfold set_status. repeat frame1. Qed.
#[export] Instance kp_orc_set_status c v : Keeps orc (set_status c v).
Proof. intro s. generalize (eq_refl (orc s)). generalize (orc s) at 2 3. intros R HR. unfold set_status. repeat frame1. Qed.
#[export] Instance kp_salts_set_status c v : Keeps salts (set_status c v).
Proof. intro s. generalize (eq_refl (salts s)). generalize (salts s) at 2 3. intros R HR. unfold set_status. repeat frame1. Qed.

#[export] Instance kp_cf_shutdown z : Keeps cf (shutdown z).
Proof. intro s. generalize (eq_refl (cf s)). generalize (cf s) at 2 3. intros R HR. unfold shutdown. repeat frame1. Qed.
#[export] Instance kp_nst_shutdown z : Keeps nst (shutdown z).
Proof. intro s. generalize (eq_refl (nst s)). generalize (nst s) at 2 3. intros R HR. unfold shutdown. repeat frame1. Qed.
#[export] Instance kp_self_shutdown z : Keeps self (shutdown z).
Proof. intro s. generalize (eq_refl (self s)). generalize (self s) at 2 3. intros R HR. unfold shutdown. repeat frame1. Qed.
#[export] Instance kp_parent_shutdown z : Keeps parent (shutdown z).
Proof. intro s. generalize (eq_refl (parent s)). generalize (parent s) at 2 3. intros R HR. unfold shutdown. repeat frame1. Qed.
#[export] Instance kp_routes_shutdown z : Keeps routes (shutdown z).
Proof. intro s. generalize (eq_refl (routes s)). generalize (routes s) at 2 3. intros R HR. unfold shutdown. repeat frame1. Qed.
#[export] Instance kp_fl_reset_shutdown z : Keeps fl_reset (shutdown z).
Proof. intro s. generalize (eq_refl (fl_reset s)). generalize (fl_reset s) at 2 3. intros R HR. unfold shutdown. repeat frame1. Qed.
#[export] Instance kp_fl_gcreset_shutdown z : Keeps fl_gcreset (shutdown z).
Proof. intro s. generalize (eq_refl (fl_gcreset s)). generalize (fl_gcreset s) at 2 3. intros R HR. unfold shutdown. repeat frame1. Qed.
#[export] Instance kp_fl_act_shutdown z : Keeps fl_act (shutdown z).
Proof. intro s. generalize (eq_refl (fl_act s)). generalize (fl_act s) at 2 3. intros R HR. unfold shutdown. repeat frame1. Qed.
#[export] Instance kp_fl_preg_shutdown z : Keeps fl_preg (shutdown z).
Proof. intro s. generalize (eq_refl (fl_preg s)). generalize (fl_preg s) at 2 3. intros R HR. unfold shutdown. repeat frame1. Qed.
#[export] Instance kp_fl_self_shutdown z : Keeps fl_self (shutdown z).
Proof. intro s. generalize (eq_refl (fl_self s)). generalize (fl_self s) at 2 3. intros R HR. unfold shutdown. repeat frame1. Qed.
#[export] Instance kp_fl_gce_shutdown z : Keeps fl_gce (shutdown z).
Proof. intro s. generalize (eq_refl (fl_gce s)). generalize (fl_gce s) at 2 3. intros R HR. unfold shutdown. repeat frame1. Qed.
#[export] Instance kp_fl_gcc_shutdown z : Keeps fl_gcc (shutdown z).
Proof. intro s. generalize (eq_refl (fl_gcc s)). generalize (fl_gcc s) at 2 3. intros R HR. unfold shutdown. repeat frame1. Qed.
#[export] Instance kp_sec_shutdown z : Keeps sec (shutdown z).
Proof. intro s. generalize (eq_refl (sec s)). generalize (sec s) at 2 3. intros R HR. unfold shutdown. repeat frame1. Qed.
#[export] Instance kp_popr_shutdown z : Keeps popr (shutdown z).
Proof. intro s. generalize (eq_refl (popr s)). generalize (popr s) at 2 3. intros R HR. unfold shutdown. repeat frame1. Qed.
#[export] Instance kp_connecting_shutdown z : Keeps connecting (shutdown z).
Proof. intro s. generalize (eq_refl (connecting s)). generalize (connecting s) at 2 3. intros R HR. unfold shutdown. repeat frame1. Qed.
#[export] Instance kp_pings_shutdown z : Keeps pings (shutdown z).
Proof. intro s. generalize (eq_refl (pings s)). generalize (pings s) at 2 3. intros R HR. unfold shutdown. repeat frame1. Qed.
#[export] Instance kp_pend_shutdown z : Keeps pend (shutdown z).
Proof. intro s. generalize (eq_refl (pend s)). generalize (pend s) at 2 3. intros R HR. unfold shutdown. repeat frame1. Qed.
#[export] Instance kp_lpend_shutdown z : Keeps lpend (shutdown z).
Proof. intro s. generalize (eq_refl (lpend s)). generalize (lpend s) at 2 3. intros R HR. unfold shutdown. repeat frame1. Qed.
#[export] Instance kp_gce_shutdown z : Keeps gce (shutdown z).
Proof. intro s. generalize (eq_refl (gce s)). generalize (gce s) at 2 3. intros R HR. unfold shutdown. repeat frame1. Qed.
#[export] Instance kp_gcc_shutdown z : Keeps gcc (shutdown z).
Proof. intro s. generalize (eq_refl (gcc s)). generalize (gcc s) at 2 3. intros R HR. unfold shutdown. repeat frame1. Qed.
#[export] Instance kp_procs_shutdown z : Keeps procs (shutdown z).
Proof. intro s. generalize (eq_refl (procs s)). generalize (procs s) at 2 3. intros R HR. unfold shutdown. repeat frame1. Qed.
#[export] Instance kp_seqn_shutdown z : Keeps seqn (shutdown z).
Proof. intro s. generalize (eq_refl (seqn s)). generalize (seqn s) at 2 3. intros R HR. unfold shutdown. repeat frame1. Qed.
#[export] Instance kp_qdata_shutdown z : Keeps qdata (shutdown z).
Proof. intro s. generalize (eq_refl (qdata s)). generalize (qdata s) at 2 3. intros R HR. unfold shutdown. repeat frame1. Qed.
#[export] Instance kp_qcmd_shutdown z : Keeps qcmd (shutdown z).
Proof. intro s. generalize (eq_refl (qcmd s)). generalize (qcmd s) at 2 3. intros R HR. unfold shutdown. repeat frame1. Qed.
#[export] Instance kp_cs_shutdown z : Keeps cs (shutdown z).
Proof. intro s. generalize (eq_refl (cs s)). generalize (cs s) at 2 3. intros R HR. unfold shutdown. repeat frame1. Qed.
#[export] Instance kp_nextc_shutdown z : Keeps nextc (shutdown z).
Proof. intro s. generalize (eq_refl (nextc s)). generalize (nextc s) at 2 3. intros R HR. unfold shutdown. repeat frame1. Qed.
#[export] Instance kp_es_shutdown z : Keeps es (shutdown z).
Proof. intro s. generalize (eq_refl (es s)). generalize (es s) at 2 3. intros R HR. unfold shutdown. repeat frame1. Qed.
#[export] Instance kp_nexte_shutdown z : Keeps nexte (shutdown z).
Proof. intro s. generalize (eq_refl (nexte s)). generalize (nexte s) at 2 3. intros R HR. unfold shutdown. repeat frame1. Qed.
#[export] Instance kp_orc_shutdown z : Keeps orc (shutdown z).
Proof. intro s. generalize (eq_refl (orc s)). generalize (orc s) at 2 3. intros R HR. unfold shutdown. repeat frame1. Qed.
#[export] Instance kp_salts_shutdown z : Keeps salts (shutdown z).
Proof. intro s. generalize (eq_refl (salts s)). generalize (salts s) at 2 3. intros R HR. unfold shutdown. repeat frame1. Qed.

#[export] Instance kp_cf_fatal_shutdown z : Keeps cf (fatal_shutdown z).
Proof. intro s. generalize (eq_refl (cf s)). generalize (cf s) at 2 3. intros R HR. unfold fatal_shutdown. repeat frame1. Qed.
#[export] Instance kp_nst_fatal_shutdown z : Keeps nst (fatal_shutdown z).
Proof. intro s. generalize (eq_refl (nst s)). generalize (nst s) at 2 3. intros R HR. unfold fatal_shutdown. repeat frame1. Qed.
#[export] Instance kp_self_fatal_shutdown z : Keeps self (fatal_shutdown z).
Proof. intro s. generalize (eq_refl (self s)). generalize (self s) at 2 3. intros R HR. unfold fatal_shutdown. repeat frame1. Qed.
#[export] Instance kp_parent_fatal_shutdown z : Keeps parent (fatal_shutdown z).
Proof. intro s. generalize (eq_refl (parent s)). generalize (parent s) at 2 3. intros R HR. unfold fatal_shutdown. repeat frame1. Qed.
#[export] Instance kp_routes_fatal_shutdown z : Keeps routes (fatal_shutdown z).
Proof. intro s. generalize (eq_refl (routes s)). generalize (routes s) at 2 3. intros R HR. unfold fatal_shutdown. repeat frame1. Qed.
#[export] Instance kp_fl_reset_fatal_shutdown z : Keeps fl_reset (fatal_shutdown z).
Proof. intro s. generalize (eq_refl (fl_reset s)). generalize (fl_reset s) at 2 3. intros R HR. unfold fatal_shutdown. repeat frame1. Qed.
#[export] Instance kp_fl_gcreset_fatal_shutdown z : Keeps fl_gcreset (fatal_shutdown z).
Proof. intro s. generalize (eq_refl (fl_gcreset s)). generalize (fl_gcreset s) at 2 3. intros R HR. unfold fatal_shutdown. repeat frame1. Qed.
#[export] Instance kp_fl_act_fatal_shutdown z : Keeps fl_act (fatal_shutdown z).
Proof. intro s. generalize (eq_refl (fl_act s)). generalize (fl_act s) at 2 3. intros R HR. unfold fatal_shutdown. repeat frame1. Qed.
#[export] Instance kp_fl_preg_fatal_shutdown z : Keeps fl_preg (fatal_shutdown z).
Proof. intro s. generalize (eq_refl (fl_preg s)). generalize (fl_preg s) at 2 3. intros R HR. unfold fatal_shutdown. repeat frame1. Qed.
#[export] Instance kp_fl_self_fatal_shutdown z : Keeps fl_self (fatal_shutdown z).
Proof. intro s. generalize (eq_refl (fl_self s)). generalize (fl_self s) at 2 3. intros R HR. unfold fatal_shutdown. repeat frame1. Qed.
#[export] Instance kp_fl_gce_fatal_shutdown z : Keeps fl_gce (fatal_shutdown z).
Proof. intro s. generalize (eq_refl (fl_gce s)). generalize (fl_gce s) at 2 3. intros R HR. unfold fatal_shutdown. repeat frame1. Qed.
#[export] Instance kp_fl_gcc_fatal_shutdown z : Keeps fl_gcc (fatal_shutdown z).
Proof. intro s. generalize (eq_refl (fl_gcc s)). generalize (fl_gcc s) at 2 3. intros R HR. unfold fatal_shutdown. repeat frame1. Qed.
#[export] Instance kp_sec_fatal_shutdown z : Keeps sec (fatal_shutdown z).
Proof. intro s. generalize (eq_refl (sec s)). generalize (sec s) at 2 3. intros R HR. unfold fatal_shutdown. repeat frame1. Qed.
#[export] Instance kp_popr_fatal_shutdown z : Keeps popr (fatal_shutdown z).
Proof. intro s. generalize (eq_refl (popr s)). generalize (popr s) at 2 3. intros R HR. unfold fatal_shutdown. repeat frame1. Qed.
#[export] Instance kp_connecting_fatal_shutdown z : Keeps connecting (fatal_shutdown z).
Proof. intro s. generalize (eq_refl (connecting s)). generalize (connecting s) at 2 3. intros R HR. unfold fatal_shutdown. repeat frame1. Qed.
#[export] Instance kp_pings_fatal_shutdown z : Keeps pings (fatal_shutdown z).
Proof. intro s. generalize (eq_refl (pings s)). generalize (pings s) at 2 3. intros R HR. unfold fatal_shutdown. repeat frame1. Qed.
#[export] Instance kp_pend_fatal_shutdown z : Keeps pend (fatal_shutdown z).
Proof. intro s. generalize (eq_refl (pend s)). generalize (pend s) at 2 3. intros R HR. unfold fatal_shutdown. repeat frame1. Qed.
#[export] Instance kp_lpend_fatal_shutdown z : Keeps lpend (fatal_shutdown z).
Proof. intro s. generalize (eq_refl (lpend s)). generalize (lpend s) at 2 3. intros R HR. unfold fatal_shutdown. repeat frame1. Qed.
#[export] Instance kp_gce_fatal_shutdown z : Keeps gce (fatal_shutdown z).
Proof. intro s. generalize (eq_refl (gce s)). generalize (gce s) at 2 3. intros R HR. unfold fatal_shutdown. repeat frame1. Qed.
#[export] Instance kp_gcc_fatal_shutdown z : Keeps gcc (fatal_shutdown z).
Proof. intro s. generalize (eq_refl (gcc s)). generalize (gcc s) at 2 3. intros R HR. unfold fatal_shutdown. repeat frame1. Qed.
#[export] Instance kp_procs_fatal_shutdown z : Keeps procs (fatal_shutdown z).
Proof. intro s. generalize (eq_refl (procs s)). generalize (procs s) at 2 3. intros R HR. unfold fatal_shutdown. repeat frame1. Qed.
#[export] Instance kp_seqn_fatal_shutdown z : Keeps seqn (fatal_shutdown z).
Proof. intro s. generalize (eq_refl (seqn s)). generalize (seqn s) at 2 3. intros R HR. unfold fatal_shutdown. repeat frame1. Qed.
#[export] Instance kp_qdata_fatal_shutdown z : Keeps qdata (fatal_shutdown z).
Proof. intro s. generalize (eq_refl (qdata s)). generalize (qdata s) at 2 3. intros R HR. unfold fatal_shutdown. repeat frame1. Qed.
#[export] Instance kp_qcmd_fatal_shutdown z : Keeps qcmd (fatal_shutdown z).
Proof. intro s. generalize (eq_refl (qcmd s)). generalize (qcmd s) at 2 3. intros R HR. unfold fatal_shutdown. repeat frame1. Qed.
#[export] Instance kp_cs_fatal_shutdown z : Keeps cs (fatal_shutdown z).
Proof. intro s. generalize (eq_refl (cs s)). generalize (cs s) at 2 3. intros R HR. unfold fatal_shutdown. repeat frame1. Qed.
#[export] Instance kp_nextc_fatal_shutdown z : Keeps nextc (fatal_shutdown z).
Proof. intro s. generalize (eq_refl (nextc s)). generalize (nextc s) at 2 3. intros R HR. unfold fatal_shutdown. repeat frame1. Qed.
#[export] Instance kp_es_fatal_shutdown z : Keeps es (fatal_shutdown z).
Proof. intro s. generalize (eq_refl (es s)). generalize (es s) at 2 3. intros R HR. unfold fatal_shutdown. repeat frame1. Qed.
#[export] Instance kp_nexte_fatal_shutdown z : Keeps nexte (fatal_shutdown z).
Proof. intro s. generalize (eq_refl (nexte s)). generalize (nexte s) at 2 3. intros R HR. unfold fatal_shutdown. repeat frame1. Qed.
#[export] Instance kp_orc_fatal_shutdown z : Keeps orc (fatal_shutdown z).
Proof. intro s. generalize (eq_refl (orc s)). generalize (orc s) at 2 3. intros R HR. unfold fatal_shutdown. repeat frame1. Qed.
#[export] Instance kp_salts_fatal_shutdown z : Keeps salts (fatal_shutdown z).
Proof. intro s. generalize (eq_refl (salts s)). generalize (salts s) at 2 3. intros R HR. unfold fatal_shutdown. repeat frame1. Qed.

#[export] Instance kp_cf_on_actived : Keeps cf on_actived.
Proof. intro s. generalize (eq_refl (cf s)). generalize (cf s) at 2 3. intros R HR. unfold on_actived. repeat frame1. Qed.
#[export] Instance kp_self_on_actived : Keeps self on_actived.
Proof. intro s. generalize (eq_refl (self s)). generalize (self s) at 2 3. intros R HR. unfold on_actived. repeat frame1. Qed.
#[export] Instance kp_parent_on_actived : Keeps parent on_actived.
Proof. intro s. generalize (eq_refl (parent s)). generalize (parent s) at 2 3. intros R HR. unfold on_actived. repeat frame1. Qed.
#[export] Instance kp_routes_on_actived : Keeps routes on_actived.
Proof. intro s. generalize (eq_refl (routes s)). generalize (routes s) at 2 3. intros R HR. unfold on_actived. repeat frame1. Qed.
#[export] Instance kp_fl_reset_on_actived : Keeps fl_reset on_actived.
Proof. intro s. generalize (eq_refl (fl_reset s)). generalize (fl_reset s) at 2 3. intros R HR. unfold on_actived. repeat frame1. Qed.
#[export] Instance kp_fl_gcreset_on_actived : Keeps fl_gcreset on_actived.
Proof. intro s. generalize (eq_refl (fl_gcreset s)). generalize (fl_gcreset s) at 2 3. intros R HR. unfold on_actived. repeat frame1. Qed.
#[export] Instance kp_fl_preg_on_actived : Keeps fl_preg on_actived.
Proof. intro s. generalize (eq_refl (fl_preg s)). generalize (fl_preg s) at 2 3. intros R HR. unfold on_actived. repeat frame1. Qed.
#[export] Instance kp_fl_shut_on_actived : Keeps fl_shut on_actived.
Proof. intro s. generalize (eq_refl (fl_shut s)). generalize (fl_shut s) at 2 3. intros R HR. unfold on_actived. repeat frame1. Qed.
#[export] Instance kp_fl_self_on_actived : Keeps fl_self on_actived.
Proof. intro s. generalize (eq_refl (fl_self s)). generalize (fl_self s) at 2 3. intros R HR. unfold on_actived. repeat frame1. Qed.
#[export] Instance kp_fl_gce_on_actived : Keeps fl_gce on_actived.
Proof. intro s. generalize (eq_refl (fl_gce s)). generalize (fl_gce s) at 2 3. intros R HR. unfold on_actived. repeat frame1. Qed.
#[export] Instance kp_fl_gcc_on_actived : Keeps fl_gcc on_actived.
Proof. intro s. generalize (eq_refl (fl_gcc s)). generalize (fl_gcc s) at 2 3. intros R HR. unfold on_actived. repeat frame1. Qed.
#[export] Instance kp_sec_on_actived : Keeps sec on_actived.
Proof. intro s. generalize (eq_refl (sec s)). generalize (sec s) at 2 3. intros R HR. unfold on_actived. repeat frame1. Qed.
#[export] Instance kp_popr_on_actived : Keeps popr on_actived.
Proof. intro s. generalize (eq_refl (popr s)). generalize (popr s) at 2 3. intros R HR. unfold on_actived. repeat frame1. Qed.
#[export] Instance kp_connecting_on_actived : Keeps connecting on_actived.
Proof. intro s. generalize (eq_refl (connecting s)). generalize (connecting s) at 2 3. intros R HR. unfold on_actived. repeat frame1. Qed.
#[export] Instance kp_pings_on_actived : Keeps pings on_actived.
Proof. intro s. generalize (eq_refl (pings s)). generalize (pings s) at 2 3. intros R HR. unfold on_actived. repeat frame1. Qed.
#[export] Instance kp_pend_on_actived : Keeps pend on_actived.
Proof. intro s. generalize (eq_refl (pend s)). generalize (pend s) at 2 3. intros R HR. unfold on_actived. repeat frame1. Qed.
#[export] Instance kp_lpend_on_actived : Keeps lpend on_actived.
Proof. intro s. generalize (eq_refl (lpend s)). generalize (lpend s) at 2 3. intros R HR. unfold on_actived. repeat frame1. Qed.
#[export] Instance kp_gce_on_actived : Keeps gce on_actived.
Proof. intro s. generalize (eq_refl (gce s)). generalize (gce s) at 2 3. intros R HR. unfold on_actived. repeat frame1. Qed.
#[export] Instance kp_gcc_on_actived : Keeps gcc on_actived.
Proof. intro s. generalize (eq_refl (gcc s)). generalize (gcc s) at 2 3. intros R HR. unfold on_actived. repeat frame1. Qed.
#[export] Instance kp_procs_on_actived : Keeps procs on_actived.
Proof. intro s. generalize (eq_refl (procs s)). generalize (procs s) at 2 3. intros R HR. unfold on_actived. repeat frame1. Qed.
#[export] Instance kp_seqn_on_actived : Keeps seqn on_actived.
Proof. intro s. generalize (eq_refl (seqn s)). generalize (seqn s) at 2 3. intros R HR. unfold on_actived. repeat frame1. Qed.
#[export] Instance kp_qdata_on_actived : Keeps qdata on_actived.
Proof. intro s. generalize (eq_refl (qdata s)). generalize (qdata s) at 2 3. intros R HR. unfold on_actived. repeat frame1. Qed.
#[export] Instance kp_qcmd_on_actived : Keeps qcmd on_actived.
Proof. intro s. generalize (eq_refl (qcmd s)). generalize (qcmd s) at 2 3. intros R HR. unfold on_actived. repeat frame1. Qed.
#[export] Instance kp_cs_on_actived : Keeps cs on_actived.
Proof. intro s. generalize (eq_refl (cs s)). generalize (cs s) at 2 3. intros R HR. unfold on_actived. repeat frame1. Qed.
#[export] Instance kp_nextc_on_actived : Keeps nextc on_actived.
Proof. intro s. generalize (eq_refl (nextc s)). generalize (nextc s) at 2 3. intros R HR. unfold on_actived. repeat frame1. Qed.
#[export] Instance kp_es_on_actived : Keeps es on_actived.
Proof. intro s. generalize (eq_refl (es s)). generalize (es s) at 2 3. intros R HR. unfold on_actived. repeat frame1. Qed.
#[export] Instance kp_nexte_on_actived : Keeps nexte on_actived.
Proof. intro s. generalize (eq_refl (nexte s)). generalize (nexte s) at 2 3. intros R HR. unfold on_actived. repeat frame1. Qed.
#[export] Instance kp_orc_on_actived : Keeps orc on_actived.
Proof. intro s. generalize (eq_refl (orc s)). generalize (orc s) at 2 3. intros R HR. unfold on_actived. repeat frame1. Qed.
#[export] Instance kp_salts_on_actived : Keeps salts on_actived.
Proof. intro s. generalize (eq_refl (salts s)). generalize (salts s) at 2 3. intros R HR. unfold on_actived. repeat frame1. Qed.

#[export] Instance kp_cf_on_disconnect c : Keeps cf (on_disconnect c).
Proof. intro s. generalize (eq_refl (cf s)). generalize (cf s) at 2 3. intros R HR. unfold on_disconnect. repeat frame1. Qed.
#[export] Instance kp_self_on_disconnect c : Keeps self (on_disconnect c).
Proof. intro s. generalize (eq_refl (self s)). generalize (self s) at 2 3. intros R HR. unfold on_disconnect. repeat frame1. Qed.
#[export] Instance kp_parent_on_disconnect c : Keeps parent (on_disconnect c).
Proof. intro s. generalize (eq_refl (parent s)). generalize (parent s) at 2 3. intros R HR. unfold on_disconnect. repeat frame1. Qed.
#[export] Instance kp_routes_on_disconnect c : Keeps routes (on_disconnect c).
Proof. intro s. generalize (eq_refl (routes s)). generalize (routes s) at 2 3. intros R HR. unfold on_disconnect. repeat frame1. Qed.
#[export] Instance kp_fl_reset_on_disconnect c : Keeps fl_reset (on_disconnect c).
Proof. intro s. generalize (eq_refl (fl_reset s)). generalize (fl_reset s) at 2 3. intros R HR. unfold on_disconnect. repeat frame1. Qed.
#[export] Instance kp_fl_gcreset_on_disconnect c : Keeps fl_gcreset (on_disconnect c).
Proof. intro s. generalize (eq_refl (fl_gcreset s)). generalize (fl_gcreset s) at 2 3. intros R HR. unfold on_disconnect. repeat frame1. Qed.
#[export] Instance kp_fl_act_on_disconnect c : Keeps fl_act (on_disconnect c).
Proof. intro s. generalize (eq_refl (fl_act s)). generalize (fl_act s) at 2 3. intros R HR. unfold on_disconnect. repeat frame1. Qed.
#[export] Instance kp_fl_preg_on_disconnect c : Keeps fl_preg (on_disconnect c).
Proof. intro s. generalize (eq_refl (fl_preg s)). generalize (fl_preg s) at 2 3. intros R HR. unfold on_disconnect. repeat frame1. Qed.
#[export] Instance kp_fl_self_on_disconnect c : Keeps fl_self (on_disconnect c).
Proof. intro s. generalize (eq_refl (fl_self s)). generalize (fl_self s) at 2 3. intros R HR. unfold on_disconnect. repeat frame1. Qed.
#[export] Instance kp_fl_gce_on_disconnect c : Keeps fl_gce (on_disconnect c).
Proof. intro s. generalize (eq_refl (fl_gce s)). generalize (fl_gce s) at 2 3. intros R HR. unfold on_disconnect. repeat frame1. Qed.
#[export] Instance kp_fl_gcc_on_disconnect c : Keeps fl_gcc (on_disconnect c).
Proof. intro s. generalize (eq_refl (fl_gcc s)). generalize (fl_gcc s) at 2 3. intros R HR. unfold on_disconnect. repeat frame1. Qed.
#[export] Instance kp_sec_on_disconnect c : Keeps sec (on_disconnect c).
Proof. intro s. generalize (eq_refl (sec s)). generalize (sec s) at 2 3. intros R HR. unfold on_disconnect. repeat frame1. Qed.
#[export] Instance kp_connecting_on_disconnect c : Keeps connecting (on_disconnect c).
Proof. intro s. generalize (eq_refl (connecting s)). generalize (connecting s) at 2 3. intros R HR. unfold on_disconnect. repeat frame1. Qed.
#[export] Instance kp_pings_on_disconnect c : Keeps pings (on_disconnect c).
Proof. intro s. generalize (eq_refl (pings s)). generalize (pings s) at 2 3. intros R HR. unfold on_disconnect. repeat frame1. Qed.
#[export] Instance kp_pend_on_disconnect c : Keeps pend (on_disconnect c).
Proof. intro s. generalize (eq_refl (pend s)). generalize (pend s) at 2 3. intros R HR. unfold on_disconnect. repeat frame1. Qed.
#[export] Instance kp_lpend_on_disconnect c : Keeps lpend (on_disconnect c).
Proof. intro s. generalize (eq_refl (lpend s)). generalize (lpend s) at 2 3. intros R HR. unfold on_disconnect. repeat frame1. Qed.
#[export] Instance kp_gce_on_disconnect c : Keeps gce (on_disconnect c).
Proof. intro s. generalize (eq_refl (gce s)). generalize (gce s) at 2 3. intros R HR. unfold on_disconnect. repeat frame1. Qed.
#[export] Instance kp_gcc_on_disconnect c : Keeps gcc (on_disconnect c).
Proof. intro s. generalize (eq_refl (gcc s)). generalize (gcc s) at 2 3. intros R HR. unfold on_disconnect. repeat frame1. Qed.
#[export] Instance kp_procs_on_disconnect c : Keeps procs (on_disconnect c).
Proof. intro s. generalize (eq_refl (procs s)). generalize (procs s) at 2 3. intros R HR. unfold on_disconnect. repeat frame1. Qed.
#[export] Instance kp_seqn_on_disconnect c : Keeps seqn (on_disconnect c).
Proof. intro s. generalize (eq_refl (seqn s)). generalize (seqn s) at 2 3. intros R HR. unfold on_disconnect. repeat frame1. Qed.
#[export] Instance kp_qdata_on_disconnect c : Keeps qdata (on_disconnect c).
Proof. intro s. generalize (eq_refl (qdata s)). generalize (qdata s) at 2 3. intros R HR. unfold on_disconnect. repeat frame1. Qed.
#[export] Instance kp_qcmd_on_disconnect c : Keeps qcmd (on_disconnect c).
Proof. intro s. generalize (eq_refl (qcmd s)). generalize (qcmd s) at 2 3. intros R HR. unfold on_disconnect. repeat frame1. Qed.
#[export] Instance kp_cs_on_disconnect c : Keeps cs (on_disconnect c).
Proof. intro s. generalize (eq_refl (cs s)). generalize (cs s) at 2 3. intros R HR. unfold on_disconnect. repeat frame1. Qed.
#[export] Instance kp_nextc_on_disconnect c : Keeps nextc (on_disconnect c).
Proof. intro s. generalize (eq_refl (nextc s)). generalize (nextc s) at 2 3. intros R HR. unfold on_disconnect. repeat frame1. Qed.
#[export] Instance kp_es_on_disconnect c : Keeps es (on_disconnect c).
Proof. intro s. generalize (eq_refl (es s)). generalize (es s) at 2 3. intros R HR. unfold on_disconnect. repeat frame1. Qed.
#[export] Instance kp_nexte_on_disconnect c : Keeps nexte (on_disconnect c).
Proof. intro s. generalize (eq_refl (nexte s)). generalize (nexte s) at 2 3. intros R HR. unfold on_disconnect. repeat frame1. Qed.
#[export] Instance kp_orc_on_disconnect c : Keeps orc (on_disconnect c).
Proof. intro s. generalize (eq_refl (orc s)). generalize (orc s) at 2 3. intros R HR. unfold on_disconnect. repeat frame1. Qed.
#[export] Instance kp_salts_on_disconnect c : Keeps salts (on_disconnect c).
Proof. intro s. generalize (eq_refl (salts s)). generalize (salts s) at 2 3. intros R HR. unfold on_disconnect. repeat frame1. Qed.

#[export] Instance kp_cf_rm_proc a : Keeps cf (rm_proc a).
Proof. intro s. generalize (eq_refl (cf s)). generalize (cf s) at 2 3. intros R HR. unfold rm_proc. repeat frame1. Qed.
#[export] Instance kp_nst_rm_proc a : Keeps nst (rm_proc a).
Proof. intro s. generalize (eq_refl (nst s)). generalize (nst s) at 2 3. intros R HR. unfold rm_proc. repeat frame1. Qed.
#[export] Instance kp_self_rm_proc a : Keeps self (rm_proc a).
Proof. intro s. generalize (eq_refl (self s)). generalize (self s) at 2 3. intros R HR. unfold rm_proc. repeat frame1. Qed.
#[export] Instance kp_parent_rm_proc a : Keeps parent (rm_proc a).
Proof. intro s. generalize (eq_refl (parent s)). generalize (parent s) at 2 3. intros R HR. unfold rm_proc. repeat frame1. Qed.
#[export] Instance kp_routes_rm_proc a : Keeps routes (rm_proc a).
Proof. intro s. generalize (eq_refl (routes s)). generalize (routes s) at 2 3. intros R HR. unfold rm_proc. repeat frame1. Qed.
#[export] Instance kp_fl_reset_rm_proc a : Keeps fl_reset (rm_proc a).
Proof. intro s. generalize (eq_refl (fl_reset s)). generalize (fl_reset s) at 2 3. intros R HR. unfold rm_proc. repeat frame1. Qed.
#[export] Instance kp_fl_gcreset_rm_proc a : Keeps fl_gcreset (rm_proc a).
Proof. intro s. generalize (eq_refl (fl_gcreset s)). generalize (fl_gcreset s) at 2 3. intros R HR. unfold rm_proc. repeat frame1. Qed.
#[export] Instance kp_fl_act_rm_proc a : Keeps fl_act (rm_proc a).
Proof. intro s. generalize (eq_refl (fl_act s)). generalize (fl_act s) at 2 3. intros R HR. unfold rm_proc. repeat frame1. Qed.
#[export] Instance kp_fl_preg_rm_proc a : Keeps fl_preg (rm_proc a).
Proof. intro s. generalize (eq_refl (fl_preg s)). generalize (fl_preg s) at 2 3. intros R HR. unfold rm_proc. repeat frame1. Qed.
#[export] Instance kp_fl_shut_rm_proc a : Keeps fl_shut (rm_proc a).
Proof. intro s. generalize (eq_refl (fl_shut s)). generalize (fl_shut s) at 2 3. intros R HR. unfold rm_proc. repeat frame1. Qed.
#[export] Instance kp_fl_self_rm_proc a : Keeps fl_self (rm_proc a).
Proof. intro s. generalize (eq_refl (fl_self s)). generalize (fl_self s) at 2 3. intros R HR. unfold rm_proc. repeat frame1. Qed.
#[export] Instance kp_fl_gce_rm_proc a : Keeps fl_gce (rm_proc a).
Proof. intro s. generalize (eq_refl (fl_gce s)). generalize (fl_gce s) at 2 3. intros R HR. unfold rm_proc. repeat frame1. Qed.
#[export] Instance kp_fl_gcc_rm_proc a : Keeps fl_gcc (rm_proc a).
Proof. intro s. generalize (eq_refl (fl_gcc s)). generalize (fl_gcc s) at 2 3. intros R HR. unfold rm_proc. repeat frame1. Qed.
#[export] Instance kp_sec_rm_proc a : Keeps sec (rm_proc a).
Proof. intro s. generalize (eq_refl (sec s)). generalize (sec s) at 2 3. intros R HR. unfold rm_proc. repeat frame1. Qed.
#[export] Instance kp_popr_rm_proc a : Keeps popr (rm_proc a).
Proof. intro s. generalize (eq_refl (popr s)). generalize (popr s) at 2 3. intros R HR. unfold rm_proc. repeat frame1. Qed.
#[export] Instance kp_connecting_rm_proc a : Keeps connecting (rm_proc a).
Proof. intro s. generalize (eq_refl (connecting s)). generalize (connecting s) at 2 3. intros R HR. unfold rm_proc. repeat frame1. Qed.
#[export] Instance kp_pings_rm_proc a : Keeps pings (rm_proc a).
Proof. intro s. generalize (eq_refl (pings s)). generalize (pings s) at 2 3. intros R HR. unfold rm_proc. repeat frame1. Qed.
#[export] Instance kp_pend_rm_proc a : Keeps pend (rm_proc a).
Proof. intro s. generalize (eq_refl (pend s)). generalize (pend s) at 2 3. intros R HR. unfold rm_proc. repeat frame1. Qed.
#[export] Instance kp_lpend_rm_proc a : Keeps lpend (rm_proc a).
Proof. intro s. generalize (eq_refl (lpend s)). generalize (lpend s) at 2 3. intros R HR. unfold rm_proc. repeat frame1. Qed.
#[export] Instance kp_gce_rm_proc a : Keeps gce (rm_proc a).
Proof. intro s. generalize (eq_refl (gce s)). generalize (gce s) at 2 3. intros R HR. unfold rm_proc. repeat frame1. Qed.
#[export] Instance kp_gcc_rm_proc a : Keeps gcc (rm_proc a).
Proof. intro s. generalize (eq_refl (gcc s)). generalize (gcc s) at 2 3. intros R HR. unfold rm_proc. repeat frame1. Qed.
#[export] Instance kp_seqn_rm_proc a : Keeps seqn (rm_proc a).
Proof. intro s. generalize (eq_refl (seqn s)). generalize (seqn s) at 2 3. intros R HR. unfold rm_proc. repeat frame1. Qed.
#[export] Instance kp_qdata_rm_proc a : Keeps qdata (rm_proc a).
Proof. intro s. generalize (eq_refl (qdata s)). generalize (qdata s) at 2 3. intros R HR. unfold rm_proc. repeat frame1. Qed.
#[export] Instance kp_qcmd_rm_proc a : Keeps qcmd (rm_proc a).
Proof. intro s. generalize (eq_refl (qcmd s)). generalize (qcmd s) at 2 3. intros R HR. unfold rm_proc. repeat frame1. Qed.
#[export] Instance kp_cs_rm_proc a : Keeps cs (rm_proc a).
Proof. intro s. generalize (eq_refl (cs s)). generalize (cs s) at 2 3. intros R HR. unfold rm_proc. repeat frame1. Qed.
#[export] Instance kp_nextc_rm_proc a : Keeps nextc (rm_proc a).
Proof. intro s. generalize (eq_refl (nextc s)). generalize (nextc s) at 2 3. intros R HR. unfold rm_proc. repeat frame1. Qed.
#[export] Instance kp_es_rm_proc a : Keeps es (rm_proc a).
Proof. intro s. generalize (eq_refl (es s)). generalize (es s) at 2 3. intros R HR. unfold rm_proc. repeat frame1. Qed.
#[export] Instance kp_nexte_rm_proc a : Keeps nexte (rm_proc a).
Proof. intro s. generalize (eq_refl (nexte s)). generalize (nexte s) at 2 3. intros R HR. unfold rm_proc. repeat frame1. Qed.
#[export] Instance kp_orc_rm_proc a : Keeps orc (rm_proc a).
Proof. intro s. generalize (eq_refl (orc s)). generalize (orc s) at 2 3. intros R HR. unfold rm_proc. repeat frame1. Qed.
#[export] Instance kp_salts_rm_proc a : Keeps salts (rm_proc a).
Proof. intro s. generalize (eq_refl (salts s)). generalize (salts s) at 2 3. intros R HR. unfold rm_proc. repeat frame1. Qed.
#[export] Instance kp_log_rm_proc a : Keeps log (rm_proc a).
Proof. intro s. generalize (eq_refl (log s)). generalize (log s) at 2 3. intros R HR. unfold rm_proc. repeat frame1. Qed.

#[export] Instance kp_cf_add_proc c : Keeps cf (add_proc c).
Proof. intro s. generalize (eq_refl (cf s)). generalize (cf s) at 2 3. intros R HR. unfold add_proc. repeat frame1. Qed.
#[export] Instance kp_nst_add_proc c : Keeps nst (add_proc c).
Proof. intro s. generalize (eq_refl (nst s)). generalize (nst s) at 2 3. intros R HR. unfold add_proc. repeat frame1. Qed.
#[export] Instance kp_self_add_proc c : Keeps self (add_proc c).
Proof. intro s. generalize (eq_refl (self s)). generalize (self s) at 2 3. intros R HR. unfold add_proc. repeat frame1. Qed.
#[export] Instance kp_parent_add_proc c : Keeps parent (add_proc c).
Proof. intro s. generalize (eq_refl (parent s)). generalize (parent s) at 2 3. intros R HR. unfold add_proc. repeat frame1. Qed.
#[export] Instance kp_routes_add_proc c : Keeps routes (add_proc c).
Proof. intro s. generalize (eq_refl (routes s)). generalize (routes s) at 2 3. intros R HR. unfold add_proc. repeat frame1. Qed.
#[export] Instance kp_fl_reset_add_proc c : Keeps fl_reset (add_proc c).
Proof. intro s. generalize (eq_refl (fl_reset s)). generalize (fl_reset s) at 2 3. intros R HR. unfold add_proc. repeat frame1. Qed.
#[export] Instance kp_fl_gcreset_add_proc c : Keeps fl_gcreset (add_proc c).
Proof. intro s. generalize (eq_refl (fl_gcreset s)). generalize (fl_gcreset s) at 2 3. intros R HR. unfold add_proc. repeat frame1. Qed.
#[export] Instance kp_fl_act_add_proc c : Keeps fl_act (add_proc c).
Proof. intro s. generalize (eq_refl (fl_act s)). generalize (fl_act s) at 2 3. intros R HR. unfold add_proc. repeat frame1. Qed.
#[export] Instance kp_fl_preg_add_proc c : Keeps fl_preg (add_proc c).
Proof. intro s. generalize (eq_refl (fl_preg s)). generalize (fl_preg s) at 2 3. intros R HR. unfold add_proc. repeat frame1. Qed.
#[export] Instance kp_fl_shut_add_proc c : Keeps fl_shut (add_proc c).
Proof. intro s. generalize (eq_refl (fl_shut s)). generalize (fl_shut s) at 2 3. intros R HR. unfold add_proc. repeat frame1. Qed.
#[export] Instance kp_fl_self_add_proc c : Keeps fl_self (add_proc c).
Proof. intro s. generalize (eq_refl (fl_self s)). generalize (fl_self s) at 2 3. intros R HR. unfold add_proc. repeat frame1. Qed.
#[export] Instance kp_fl_gce_add_proc c : Keeps fl_gce (add_proc c).
Proof. intro s. generalize (eq_refl (fl_gce s)). generalize (fl_gce s) at 2 3. intros R HR. unfold add_proc. repeat frame1. Qed.
#[export] Instance kp_fl_gcc_add_proc c : Keeps fl_gcc (add_proc c).
Proof. intro s. generalize (eq_refl (fl_gcc s)). generalize (fl_gcc s) at 2 3. intros R HR. unfold add_proc. repeat frame1. Qed.
#[export] Instance kp_sec_add_proc c : Keeps sec (add_proc c).
Proof. intro s. generalize (eq_refl (sec s)). generalize (sec s) at 2 3. intros R HR. unfold add_proc. repeat frame1. Qed.
#[export] Instance kp_popr_add_proc c : Keeps popr (add_proc c).
Proof. intro s. generalize (eq_refl (popr s)). generalize (popr s) at 2 3. intros R HR. unfold add_proc. repeat frame1. Qed.
#[export] Instance kp_connecting_add_proc c : Keeps connecting (add_proc c).
Proof. intro s. generalize (eq_refl (connecting s)). generalize (connecting s) at 2 3. intros R HR. unfold add_proc. repeat frame1. Qed.
#[export] Instance kp_pings_add_proc c : Keeps pings (add_proc c).
Proof. intro s. generalize (eq_refl (pings s)). generalize (pings s) at 2 3. intros R HR. unfold add_proc. repeat frame1. Qed.
#[export] Instance kp_pend_add_proc c : Keeps pend (add_proc c).
Proof. intro s. generalize (eq_refl (pend s)). generalize (pend s) at 2 3. intros R HR. unfold add_proc. repeat frame1. Qed.
#[export] Instance kp_lpend_add_proc c : Keeps lpend (add_proc c).
Proof. intro s. generalize (eq_refl (lpend s)). generalize (lpend s) at 2 3. intros R HR. unfold add_proc. repeat frame1. Qed.
#[export] Instance kp_gce_add_proc c : Keeps gce (add_proc c).
Proof. intro s. generalize (eq_refl (gce s)). generalize (gce s) at 2 3. intros R HR. unfold add_proc. repeat frame1. Qed.
#[export] Instance kp_gcc_add_proc c : Keeps gcc (add_proc c).
Proof. intro s. generalize (eq_refl (gcc s)). generalize (gcc s) at 2 3. intros R HR. unfold add_proc. repeat frame1. Qed.
#[export] Instance kp_seqn_add_proc c : Keeps seqn (add_proc c).
Proof. intro s. generalize (eq_refl (seqn s)). generalize (seqn s) at 2 3. intros R HR. unfold add_proc. repeat frame1. Qed.
#[export] Instance kp_qdata_add_proc c : Keeps qdata (add_proc c).
Proof. intro s. generalize (eq_refl (qdata s)). generalize (qdata s) at 2 3. intros R HR. unfold add_proc. repeat frame1. Qed.
#[export] Instance kp_qcmd_add_proc c : Keeps qcmd (add_proc c).
Proof. intro s. generalize (eq_refl (qcmd s)). generalize (qcmd s) at 2 3. intros R HR. unfold add_proc. repeat frame1. Qed.
#[export] Instance kp_cs_add_proc c : Keeps cs (add_proc c).
Proof. intro s. generalize (eq_refl (cs s)). generalize (cs s) at 2 3. intros R HR. unfold add_proc. repeat frame1. Qed.
#[export] Instance kp_nextc_add_proc c : Keeps nextc (add_proc c).
Proof. intro s. generalize (eq_refl (nextc s)). generalize (nextc s) at 2 3. intros R HR. unfold add_proc. repeat frame1. Qed.
#[export] Instance kp_es_add_proc c : Keeps es (add_proc c).
Proof. intro s. generalize (eq_refl (es s)). generalize (es s) at 2 3. intros R HR. unfold add_proc. repeat frame1. Qed.
#[export] Instance kp_nexte_add_proc c : Keeps nexte (add_proc c).
Proof. intro s. generalize (eq_refl (nexte s)). generalize (nexte s) at 2 3. intros R HR. unfold add_proc. repeat frame1. Qed.
#[export] Instance kp_orc_add_proc c : Keeps orc (add_proc c).
Proof. intro s. generalize (eq_refl (orc s)). generalize (orc s) at 2 3. intros R HR. unfold add_proc. repeat frame1. Qed.
#[export] Instance kp_salts_add_proc c : Keeps salts (add_proc c).
Proof. intro s. generalize (eq_refl (salts s)). generalize (salts s) at 2 3. intros R HR. unfold add_proc. repeat frame1. Qed.
#[export] Instance kp_log_add_proc c : Keeps log (add_proc c).
Proof. intro s. generalize (eq_refl (log s)). generalize (log s) at 2 3. intros R HR. unfold add_proc. repeat frame1. Qed.

#[export] Instance kp_cf_add_timer c : Keeps cf (add_timer c).
Proof. intro s. generalize (eq_refl (cf s)). generalize (cf s) at 2 3. intros R HR. unfold add_timer. repeat frame1. Qed.
#[export] Instance kp_nst_add_timer c : Keeps nst (add_timer c).
Proof. intro s. generalize (eq_refl (nst s)). generalize (nst s) at 2 3. intros R HR. unfold add_timer. repeat frame1. Qed.
#[export] Instance kp_self_add_timer c : Keeps self (add_timer c).
Proof. intro s. generalize (eq_refl (self s)). generalize (self s) at 2 3. intros R HR. unfold add_timer. repeat frame1. Qed.
#[export] Instance kp_parent_add_timer c : Keeps parent (add_timer c).
Proof. intro s. generalize (eq_refl (parent s)). generalize (parent s) at 2 3. intros R HR. unfold add_timer. repeat frame1. Qed.
#[export] Instance kp_routes_add_timer c : Keeps routes (add_timer c).
Proof. intro s. generalize (eq_refl (routes s)). generalize (routes s) at 2 3. intros R HR. unfold add_timer. repeat frame1. Qed.
#[export] Instance kp_fl_reset_add_timer c : Keeps fl_reset (add_timer c).
Proof. intro s. generalize (eq_refl (fl_reset s)). generalize (fl_reset s) at 2 3. intros R HR. unfold add_timer. repeat frame1. Qed.
#[export] Instance kp_fl_gcreset_add_timer c : Keeps fl_gcreset (add_timer c).
Proof. intro s. generalize (eq_refl (fl_gcreset s)). generalize (fl_gcreset s) at 2 3. intros R HR. unfold add_timer. repeat frame1. Qed.
#[export] Instance kp_fl_act_add_timer c : Keeps fl_act (add_timer c).
Proof. intro s. generalize (eq_refl (fl_act s)). generalize (fl_act s) at 2 3. intros R HR. unfold add_timer. repeat frame1. Qed.
#[export] Instance kp_fl_preg_add_timer c : Keeps fl_preg (add_timer c).
Proof. intro s. generalize (eq_refl (fl_preg s)). generalize (fl_preg s) at 2 3. intros R HR. unfold add_timer. repeat frame1. Qed.
#[export] Instance kp_fl_shut_add_timer c : Keeps fl_shut (add_timer c).
Proof. intro s. generalize (eq_refl (fl_shut s)). generalize (fl_shut s) at 2 3. intros R HR. unfold add_timer. repeat frame1. Qed.
#[export] Instance kp_fl_self_add_timer c : Keeps fl_self (add_timer c).
Proof. intro s. generalize (eq_refl (fl_self s)). generalize (fl_self s) at 2 3. intros R HR. unfold add_timer. repeat frame1. Qed.
#[export] Instance kp_fl_gce_add_timer c : Keeps fl_gce (add_timer c).
Proof. intro s. generalize (eq_refl (fl_gce s)). generalize (fl_gce s) at 2 3. intros R HR. unfold add_timer. repeat frame1. Qed.
#[export] Instance kp_fl_gcc_add_timer c : Keeps fl_gcc (add_timer c).
Proof. intro s. generalize (eq_refl (fl_gcc s)). generalize (fl_gcc s) at 2 3. intros R HR. unfold add_timer. repeat frame1. Qed.
#[export] Instance kp_sec_add_timer c : Keeps sec (add_timer c).
Proof. intro s. generalize (eq_refl (sec s)). generalize (sec s) at 2 3. intros R HR. unfold add_timer. repeat frame1. Qed.
#[export] Instance kp_popr_add_timer c : Keeps popr (add_timer c).
Proof. intro s. generalize (eq_refl (popr s)). generalize (popr s) at 2 3. intros R HR. unfold add_timer. repeat frame1. Qed.
#[export] Instance kp_pings_add_timer c : Keeps pings (add_timer c).
Proof. intro s. generalize (eq_refl (pings s)). generalize (pings s) at 2 3. intros R HR. unfold add_timer. repeat frame1. Qed.
#[export] Instance kp_pend_add_timer c : Keeps pend (add_timer c).
Proof. intro s. generalize (eq_refl (pend s)). generalize (pend s) at 2 3. intros R HR. unfold add_timer. repeat frame1. Qed.
#[export] Instance kp_lpend_add_timer c : Keeps lpend (add_timer c).
Proof. intro s. generalize (eq_refl (lpend s)). generalize (lpend s) at 2 3. intros R HR. unfold add_timer. repeat frame1. Qed.
#[export] Instance kp_gce_add_timer c : Keeps gce (add_timer c).
Proof. intro s. generalize (eq_refl (gce s)). generalize (gce s) at 2 3. intros R HR. unfold add_timer. repeat frame1. Qed.
#[export] Instance kp_gcc_add_timer c : Keeps gcc (add_timer c).
Proof. intro s. generalize (eq_refl (gcc s)). generalize (gcc s) at 2 3. intros R HR. unfold add_timer. repeat frame1. Qed.
#[export] Instance kp_procs_add_timer c : Keeps procs (add_timer c).
Proof. intro s. generalize (eq_refl (procs s)). generalize (procs s) at 2 3. intros R HR. unfold add_timer. repeat frame1. Qed.
#[export] Instance kp_seqn_add_timer c : Keeps seqn (add_timer c).
Proof. intro s. generalize (eq_refl (seqn s)). generalize (seqn s) at 2 3. intros R HR. unfold add_timer. repeat frame1. Qed.
#[export] Instance kp_qdata_add_timer c : Keeps qdata (add_timer c).
Proof. intro s. generalize (eq_refl (qdata s)). generalize (qdata s) at 2 3. intros R HR. unfold add_timer. repeat frame1. Qed.
#[export] Instance kp_qcmd_add_timer c : Keeps qcmd (add_timer c).
Proof. intro s. generalize (eq_refl (qcmd s)). generalize (qcmd s) at 2 3. intros R HR. unfold add_timer. repeat frame1. Qed.
#[export] Instance kp_cs_add_timer c : Keeps cs (add_timer c).
Proof. intro s. generalize (eq_refl (cs s)). generalize (cs s) at 2 3. intros R HR. unfold add_timer. repeat frame1. Qed.
#[export] Instance kp_nextc_add_timer c : Keeps nextc (add_timer c).
Proof. intro s. generalize (eq_refl (nextc s)). generalize (nextc s) at 2 3. intros R HR. unfold add_timer. repeat frame1. Qed.
#[export] Instance kp_es_add_timer c : Keeps es (add_timer c).
Proof. intro s. generalize (eq_refl (es s)). generalize (es s) at 2 3. intros R HR. unfold add_timer. repeat frame1. Qed.
#[export] Instance kp_nexte_add_timer c : Keeps nexte (add_timer c).
Proof. intro s. generalize (eq_refl (nexte s)). generalize (nexte s) at 2 3. intros R HR. unfold add_timer. repeat frame1. Qed.
#[export] Instance kp_orc_add_timer c : Keeps orc (add_timer c).
Proof. intro s. generalize (eq_refl (orc s)). generalize (orc s) at 2 3. intros R HR. unfold add_timer. repeat frame1. Qed.
#[export] Instance kp_salts_add_timer c : Keeps salts (add_timer c).
Proof. intro s. generalize (eq_refl (salts s)). generalize (salts s) at 2 3. intros R HR. unfold add_timer. repeat frame1. Qed.
#[export] Instance kp_log_add_timer c : Keeps log (add_timer c).
Proof. intro s. generalize (eq_refl (log s)). generalize (log s) at 2 3. intros R HR. unfold add_timer. repeat frame1. Qed.

#[export] Instance kp_cf_gc_conn c : Keeps cf (gc_conn c).
Proof. intro s. generalize (eq_refl (cf s)). generalize (cf s) at 2 3. intros R HR. unfold gc_conn. repeat frame1. Qed.
#[export] Instance kp_nst_gc_conn c : Keeps nst (gc_conn c).
Proof. intro s. generalize (eq_refl (nst s)). generalize (nst s) at 2 3. intros R HR. unfold gc_conn. repeat frame1. Qed.
#[export] Instance kp_self_gc_conn c : Keeps self (gc_conn c).
Proof. intro s. generalize (eq_refl (self s)). generalize (self s) at 2 3. intros R HR. unfold gc_conn. repeat frame1. Qed.
#[export] Instance kp_parent_gc_conn c : Keeps parent (gc_conn c).
Proof. intro s. generalize (eq_refl (parent s)). generalize (parent s) at 2 3. intros R HR. unfold gc_conn. repeat frame1. Qed.
#[export] Instance kp_routes_gc_conn c : Keeps routes (gc_conn c).
Proof. intro s. generalize (eq_refl (routes s)). generalize (routes s) at 2 3. intros R HR. unfold gc_conn. repeat frame1. Qed.
#[export] Instance kp_fl_reset_gc_conn c : Keeps fl_reset (gc_conn c).
Proof. intro s. generalize (eq_refl (fl_reset s)). generalize (fl_reset s) at 2 3. intros R HR. unfold gc_conn. repeat frame1. Qed.
#[export] Instance kp_fl_gcreset_gc_conn c : Keeps fl_gcreset (gc_conn c).
Proof. intro s. generalize (eq_refl (fl_gcreset s)). generalize (fl_gcreset s) at 2 3. intros R HR. unfold gc_conn. repeat frame1. Qed.
#[export] Instance kp_fl_act_gc_conn c : Keeps fl_act (gc_conn c).
Proof. intro s. generalize (eq_refl (fl_act s)). generalize (fl_act s) at 2 3. intros R HR. unfold gc_conn. repeat frame1. Qed.
#[export] Instance kp_fl_preg_gc_conn c : Keeps fl_preg (gc_conn c).
Proof. intro s. generalize (eq_refl (fl_preg s)). generalize (fl_preg s) at 2 3. intros R HR. unfold gc_conn. repeat frame1. Qed.
#[export] Instance kp_fl_shut_gc_conn c : Keeps fl_shut (gc_conn c).
Proof. intro s. generalize (eq_refl (fl_shut s)). generalize (fl_shut s) at 2 3. intros R HR. unfold gc_conn. repeat frame1. Qed.
#[export] Instance kp_fl_self_gc_conn c : Keeps fl_self (gc_conn c).
Proof. intro s. generalize (eq_refl (fl_self s)). generalize (fl_self s) at 2 3. intros R HR. unfold gc_conn. repeat frame1. Qed.
#[export] Instance kp_fl_gce_gc_conn c : Keeps fl_gce (gc_conn c).
Proof. intro s. generalize (eq_refl (fl_gce s)). generalize (fl_gce s) at 2 3. intros R HR. unfold gc_conn. repeat frame1. Qed.
#[export] Instance kp_fl_gcc_gc_conn c : Keeps fl_gcc (gc_conn c).
Proof. intro s. generalize (eq_refl (fl_gcc s)). generalize (fl_gcc s) at 2 3. intros R HR. unfold gc_conn. repeat frame1. Qed.
#[export] Instance kp_sec_gc_conn c : Keeps sec (gc_conn c).
Proof. intro s. generalize (eq_refl (sec s)). generalize (sec s) at 2 3. intros R HR. unfold gc_conn. repeat frame1. Qed.
#[export] Instance kp_popr_gc_conn c : Keeps popr (gc_conn c).
Proof. intro s. generalize (eq_refl (popr s)). generalize (popr s) at 2 3. intros R HR. unfold gc_conn. repeat frame1. Qed.
#[export] Instance kp_connecting_gc_conn c : Keeps connecting (gc_conn c).
Proof. intro s. generalize (eq_refl (connecting s)). generalize (connecting s) at 2 3. intros R HR. unfold gc_conn. repeat frame1. Qed.
#[export] Instance kp_pings_gc_conn c : Keeps pings (gc_conn c).
Proof. intro s. generalize (eq_refl (pings s)). generalize (pings s) at 2 3. intros R HR. unfold gc_conn. repeat frame1. Qed.
#[export] Instance kp_pend_gc_conn c : Keeps pend (gc_conn c).
Proof. intro s. generalize (eq_refl (pend s)). generalize (pend s) at 2 3. intros R HR. unfold gc_conn. repeat frame1. Qed.
#[export] Instance kp_lpend_gc_conn c : Keeps lpend (gc_conn c).
Proof. intro s. generalize (eq_refl (lpend s)). generalize (lpend s) at 2 3. intros R HR. unfold gc_conn. repeat frame1. Qed.
#[export] Instance kp_gce_gc_conn c : Keeps gce (gc_conn c).
Proof. intro s. generalize (eq_refl (gce s)). generalize (gce s) at 2 3. intros R HR. unfold gc_conn. repeat frame1. Qed.
#[export] Instance kp_procs_gc_conn c : Keeps procs (gc_conn c).
Proof. intro s. generalize (eq_refl (procs s)). generalize (procs s) at 2 3. intros R HR. unfold gc_conn. repeat frame1. Qed.
#[export] Instance kp_seqn_gc_conn c : Keeps seqn (gc_conn c).
Proof. intro s. generalize (eq_refl (seqn s)). generalize (seqn s) at 2 3. intros R HR. unfold gc_conn. repeat frame1. Qed.
#[export] Instance kp_qdata_gc_conn c : Keeps qdata (gc_conn c).
Proof. intro s. generalize (eq_refl (qdata s)). generalize (qdata s) at 2 3. intros R HR. unfold gc_conn. repeat frame1. Qed.
#[export] Instance kp_qcmd_gc_conn c : Keeps qcmd (gc_conn c).
Proof. intro s. generalize (eq_refl (qcmd s)). generalize (qcmd s) at 2 3. intros R HR. unfold gc_conn. repeat frame1. Qed.
#[export] Instance kp_cs_gc_conn c : Keeps cs (gc_conn c).
Proof. intro s. generalize (eq_refl (cs s)). generalize (cs s) at 2 3. intros R HR. unfold gc_conn. repeat frame1. Qed.
#[export] Instance kp_nextc_gc_conn c : Keeps nextc (gc_conn c).
Proof. intro s. generalize (eq_refl (nextc s)). generalize (nextc s) at 2 3. intros R HR. unfold gc_conn. repeat frame1. Qed.
#[export] Instance kp_es_gc_conn c : Keeps es (gc_conn c).
Proof. intro s. generalize (eq_refl (es s)). generalize (es s) at 2 3. intros R HR. unfold gc_conn. repeat frame1. Qed.
#[export] Instance kp_nexte_gc_conn c : Keeps nexte (gc_conn c).
Proof. intro s. generalize (eq_refl (nexte s)). generalize (nexte s) at 2 3. intros R HR. unfold gc_conn. repeat frame1. Qed.
#[export] Instance kp_orc_gc_conn c : Keeps orc (gc_conn c).
Proof. intro s. generalize (eq_refl (orc s)). generalize (orc s) at 2 3. intros R HR. unfold gc_conn. repeat frame1. Qed.
#[export] Instance kp_salts_gc_conn c : Keeps salts (gc_conn c).
Proof. intro s. generalize (eq_refl (salts s)). generalize (salts s) at 2 3. intros R HR. unfold gc_conn. repeat frame1. Qed.
#[export] Instance kp_log_gc_conn c : Keeps log (gc_conn c).
Proof. intro s. generalize (eq_refl (log s)). generalize (log s) at 2 3. intros R HR. unfold gc_conn. repeat frame1. Qed.

#[export] Instance kp_cf_gc_ep e : Keeps cf (gc_ep e).
Proof. intro s. generalize (eq_refl (cf s)). generalize (cf s) at 2 3. intros R HR. unfold gc_ep. repeat frame1. Qed.
#[export] Instance kp_nst_gc_ep e : Keeps nst (gc_ep e).
Proof. intro s. generalize (eq_refl (nst s)). generalize (nst s) at 2 3. intros R HR. unfold gc_ep. repeat frame1. Qed.
#[export] Instance kp_self_gc_ep e : Keeps self (gc_ep e).
Proof. intro s. generalize (eq_refl (self s)). generalize (self s) at 2 3. intros R HR. unfold gc_ep. repeat frame1. Qed.
#[export] Instance kp_parent_gc_ep e : Keeps parent (gc_ep e).
Proof. intro s. generalize (eq_refl (parent s)). generalize (parent s) at 2 3. intros R HR. unfold gc_ep. repeat frame1. Qed.
#[export] Instance kp_routes_gc_ep e : Keeps routes (gc_ep e).
Proof. intro s. generalize (eq_refl (routes s)). generalize (routes s) at 2 3. intros R HR. unfold gc_ep. repeat frame1. Qed.
#[export] Instance kp_fl_reset_gc_ep e : Keeps fl_reset (gc_ep e).
Proof. intro s. generalize (eq_refl (fl_reset s)). generalize (fl_reset s) at 2 3. intros R HR. unfold gc_ep. repeat frame1. Qed.
#[export] Instance kp_fl_gcreset_gc_ep e : Keeps fl_gcreset (gc_ep e).
Proof. intro s. generalize (eq_refl (fl_gcreset s)). generalize (fl_gcreset s) at 2 3. intros R HR. unfold gc_ep. repeat frame1. Qed.
#[export] Instance kp_fl_act_gc_ep e : Keeps fl_act (gc_ep e).
Proof. intro s. generalize (eq_refl (fl_act s)). generalize (fl_act s) at 2 3. intros R HR. unfold gc_ep. repeat frame1. Qed.
#[export] Instance kp_fl_preg_gc_ep e : Keeps fl_preg (gc_ep e).
Proof. intro s. generalize (eq_refl (fl_preg s)). generalize (fl_preg s) at 2 3. intros R HR. unfold gc_ep. repeat frame1. Qed.
#[export] Instance kp_fl_shut_gc_ep e : Keeps fl_shut (gc_ep e).
Proof. intro s. generalize (eq_refl (fl_shut s)). generalize (fl_shut s) at 2 3. intros R HR. unfold gc_ep. repeat frame1. Qed.
#[export] Instance kp_fl_self_gc_ep e : Keeps fl_self (gc_ep e).
Proof. intro s. generalize (eq_refl (fl_self s)). generalize (fl_self s) at 2 3. intros R HR. unfold gc_ep. repeat frame1. Qed.
#[export] Instance kp_fl_gce_gc_ep e : Keeps fl_gce (gc_ep e).
Proof. intro s. generalize (eq_refl (fl_gce s)). generalize (fl_gce s) at 2 3. intros R HR. unfold gc_ep. repeat frame1. Qed.
#[export] Instance kp_fl_gcc_gc_ep e : Keeps fl_gcc (gc_ep e).
Proof. intro s. generalize (eq_refl (fl_gcc s)). generalize (fl_gcc s) at 2 3. intros R HR. unfold gc_ep. repeat frame1. Qed.
#[export] Instance kp_sec_gc_ep e : Keeps sec (gc_ep e).
Proof. intro s. generalize (eq_refl (sec s)). generalize (sec s) at 2 3. intros R HR. unfold gc_ep. repeat frame1. Qed.
#[export] Instance kp_popr_gc_ep e : Keeps popr (gc_ep e).
Proof. intro s. generalize (eq_refl (popr s)). generalize (popr s) at 2 3. intros R HR. unfold gc_ep. repeat frame1. Qed.
#[export] Instance kp_connecting_gc_ep e : Keeps connecting (gc_ep e).
Proof. intro s. generalize (eq_refl (connecting s)). generalize (connecting s) at 2 3. intros R HR. unfold gc_ep. repeat frame1. Qed.
#[export] Instance kp_pings_gc_ep e : Keeps pings (gc_ep e).
Proof. intro s. generalize (eq_refl (pings s)). generalize (pings s) at 2 3. intros R HR. unfold gc_ep. repeat frame1. Qed.
#[export] Instance kp_pend_gc_ep e : Keeps pend (gc_ep e).
Proof. intro s. generalize (eq_refl (pend s)). generalize (pend s) at 2 3. intros R HR. unfold gc_ep. repeat frame1. Qed.
#[export] Instance kp_lpend_gc_ep e : Keeps lpend (gc_ep e).
Proof. intro s. generalize (eq_refl (lpend s)). generalize (lpend s) at 2 3. intros R HR. unfold gc_ep. repeat frame1. Qed.
#[export] Instance kp_gcc_gc_ep e : Keeps gcc (gc_ep e).
Proof. intro s. generalize (eq_refl (gcc s)). generalize (gcc s) at 2 3. intros R HR. unfold gc_ep. repeat frame1. Qed.
#[export] Instance kp_procs_gc_ep e : Keeps procs (gc_ep e).
Proof. intro s. generalize (eq_refl (procs s)). generalize (procs s) at 2 3. intros R HR. unfold gc_ep. repeat frame1. Qed.
#[export] Instance kp_seqn_gc_ep e : Keeps seqn (gc_ep e).
Proof. intro s. generalize (eq_refl (seqn s)). generalize (seqn s) at 2 3. intros R HR. unfold gc_ep. repeat frame1. Qed.
#[export] Instance kp_qdata_gc_ep e : Keeps qdata (gc_ep e).
Proof. intro s. generalize (eq_refl (qdata s)). generalize (qdata s) at 2 3. intros R HR. unfold gc_ep. repeat frame1. Qed.
#[export] Instance kp_qcmd_gc_ep e : Keeps qcmd (gc_ep e).
Proof. intro s. generalize (eq_refl (qcmd s)). generalize (qcmd s) at 2 3. intros R HR. unfold gc_ep. repeat frame1. Qed.
#[export] Instance kp_cs_gc_ep e : Keeps cs (gc_ep e).
Proof. intro s. generalize (eq_refl (cs s)). generalize (cs s) at 2 3. intros R HR. unfold gc_ep. repeat frame1. Qed.
#[export] Instance kp_nextc_gc_ep e : Keeps nextc (gc_ep e).
Proof. intro s. generalize (eq_refl (nextc s)). generalize (nextc s) at 2 3. intros R HR. unfold gc_ep. repeat frame1. Qed.
#[export] Instance kp_es_gc_ep e : Keeps es (gc_ep e).
Proof. intro s. generalize (eq_refl (es s)). generalize (es s) at 2 3. intros R HR. unfold gc_ep. repeat frame1. Qed.
#[export] Instance kp_nexte_gc_ep e : Keeps nexte (gc_ep e).
Proof. intro s. generalize (eq_refl (nexte s)). generalize (nexte s) at 2 3. intros R HR. unfold gc_ep. repeat frame1. Qed.
#[export] Instance kp_orc_gc_ep e : Keeps orc (gc_ep e).
Proof. intro s. generalize (eq_refl (orc s)). generalize (orc s) at 2 3. intros R HR. unfold gc_ep. repeat frame1. Qed.
#[export] Instance kp_salts_gc_ep e : Keeps salts (gc_ep e).
Proof. intro s. generalize (eq_refl (salts s)). generalize (salts s) at 2 3. intros R HR. unfold gc_ep. repeat frame1. Qed.
#[export] Instance kp_log_gc_ep e : Keeps log (gc_ep e).
Proof. intro s. generalize (eq_refl (log s)). generalize (log s) at 2 3. intros R HR. unfold gc_ep. repeat frame1. Qed.

#[export] Instance kp_cf_disconnect c : Keeps cf (disconnect c).
Proof. intro s. generalize (eq_refl (cf s)). generalize (cf s) at 2 3. intros R HR. unfold disconnect. repeat frame1. Qed.
#[export] Instance kp_self_disconnect c : Keeps self (disconnect c).
Proof. intro s. generalize (eq_refl (self s)). generalize (self s) at 2 3. intros R HR. unfold disconnect. repeat frame1. Qed.
#[export] Instance kp_parent_disconnect c : Keeps parent (disconnect c).
Proof. intro s. generalize (eq_refl (parent s)). generalize (parent s) at 2 3. intros R HR. unfold disconnect. repeat frame1. Qed.
#[export] Instance kp_routes_disconnect c : Keeps routes (disconnect c).
Proof. intro s. generalize (eq_refl (routes s)). generalize (routes s) at 2 3. intros R HR. unfold disconnect. repeat frame1. Qed.
#[export] Instance kp_fl_reset_disconnect c : Keeps fl_reset (disconnect c).
Proof. intro s. generalize (eq_refl (fl_reset s)). generalize (fl_reset s) at 2 3. intros R HR. unfold disconnect. repeat frame1. Qed.
#[export] Instance kp_fl_gcreset_disconnect c : Keeps fl_gcreset (disconnect c).
Proof. intro s. generalize (eq_refl (fl_gcreset s)). generalize (fl_gcreset s) at 2 3. intros R HR. unfold disconnect. repeat frame1. Qed.
#[export] Instance kp_fl_act_disconnect c : Keeps fl_act (disconnect c).
Proof. intro s. generalize (eq_refl (fl_act s)). generalize (fl_act s) at 2 3. intros R HR. unfold disconnect. repeat frame1. Qed.
#[export] Instance kp_fl_preg_disconnect c : Keeps fl_preg (disconnect c).
Proof. intro s. generalize (eq_refl (fl_preg s)). generalize (fl_preg s) at 2 3. intros R HR. unfold disconnect. repeat frame1. Qed.
#[export] Instance kp_fl_self_disconnect c : Keeps fl_self (disconnect c).
Proof. intro s. generalize (eq_refl (fl_self s)). generalize (fl_self s) at 2 3. intros R HR. unfold disconnect. repeat frame1. Qed.
#[export] Instance kp_fl_gce_disconnect c : Keeps fl_gce (disconnect c).
Proof. intro s. generalize (eq_refl (fl_gce s)). generalize (fl_gce s) at 2 3. intros R HR. unfold disconnect. repeat frame1. Qed.
#[export] Instance kp_fl_gcc_disconnect c : Keeps fl_gcc (disconnect c).
Proof. intro s. generalize (eq_refl (fl_gcc s)). generalize (fl_gcc s) at 2 3. intros R HR. unfold disconnect. repeat frame1. Qed.
#[export] Instance kp_sec_disconnect c : Keeps sec (disconnect c).
Proof. intro s. generalize (eq_refl (sec s)). generalize (sec s) at 2 3. intros R HR. unfold disconnect. repeat frame1. Qed.
#[export] Instance kp_pings_disconnect c : Keeps pings (disconnect c).
Proof. intro s. generalize (eq_refl (pings s)). generalize (pings s) at 2 3. intros R HR. unfold disconnect. repeat frame1. Qed.
#[export] Instance kp_pend_disconnect c : Keeps pend (disconnect c).
Proof. intro s. generalize (eq_refl (pend s)). generalize (pend s) at 2 3. intros R HR. unfold disconnect. repeat frame1. Qed.
#[export] Instance kp_lpend_disconnect c : Keeps lpend (disconnect c).
Proof. intro s. generalize (eq_refl (lpend s)). generalize (lpend s) at 2 3. intros R HR. unfold disconnect. repeat frame1. Qed.
#[export] Instance kp_gce_disconnect c : Keeps gce (disconnect c).
Proof. intro s. generalize (eq_refl (gce s)). generalize (gce s) at 2 3. intros R HR. unfold disconnect. repeat frame1. Qed.
#[export] Instance kp_gcc_disconnect c : Keeps gcc (disconnect c).
Proof. intro s. generalize (eq_refl (gcc s)). generalize (gcc s) at 2 3. intros R HR. unfold disconnect. repeat frame1. Qed.
#[export] Instance kp_seqn_disconnect c : Keeps seqn (disconnect c).
Proof. intro s. generalize (eq_refl (seqn s)). generalize (seqn s) at 2 3. intros R HR. unfold disconnect. repeat frame1. Qed.
#[export] Instance kp_qdata_disconnect c : Keeps qdata (disconnect c).
Proof. intro s. generalize (eq_refl (qdata s)). generalize (qdata s) at 2 3. intros R HR. unfold disconnect. repeat frame1. Qed.
#[export] Instance kp_qcmd_disconnect c : Keeps qcmd (disconnect c).
Proof. intro s. generalize (eq_refl (qcmd s)). generalize (qcmd s) at 2 3. intros R HR. unfold disconnect. repeat frame1. Qed.
#[export] Instance kp_nextc_disconnect c : Keeps nextc (disconnect c).
Proof. intro s. generalize (eq_refl (nextc s)). generalize (nextc s) at 2 3. intros R HR. unfold disconnect. repeat frame1. Qed.
#[export] Instance kp_es_disconnect c : Keeps es (disconnect c).
Proof. intro s. generalize (eq_refl (es s)). generalize (es s) at 2 3. intros R HR. unfold disconnect. repeat frame1. Qed.
#[export] Instance kp_nexte_disconnect c : Keeps nexte (disconnect c).
Proof. intro s. generalize (eq_refl (nexte s)). generalize (nexte s) at 2 3. intros R HR. unfold disconnect. repeat frame1. Qed.
#[export] Instance kp_orc_disconnect c : Keeps orc (disconnect c).
Proof. intro s. generalize (eq_refl (orc s)). generalize (orc s) at 2 3. intros R HR. unfold disconnect. repeat frame1. Qed.
#[export] Instance kp_salts_disconnect c : Keeps salts (disconnect c).
Proof. intro s. generalize (eq_refl (salts s)). generalize (salts s) at 2 3. intros R HR. unfold disconnect. repeat frame1. Qed.

#[export] Instance kp_cf_conn_close c : Keeps cf (conn_close c).
Proof. intro s. generalize (eq_refl (cf s)). generalize (cf s) at 2 3. intros R HR. unfold conn_close. repeat frame1. Qed.
#[export] Instance kp_self_conn_close c : Keeps self (conn_close c).
Proof. intro s. generalize (eq_refl (self s)). generalize (self s) at 2 3. intros R HR. unfold conn_close. repeat frame1. Qed.
#[export] Instance kp_parent_conn_close c : Keeps parent (conn_close c).
Proof. intro s. generalize (eq_refl (parent s)). generalize (parent s) at 2 3. intros R HR. unfold conn_close. repeat frame1. Qed.
#[export] Instance kp_routes_conn_close c : Keeps routes (conn_close c).
Proof. intro s. generalize (eq_refl (routes s)). generalize (routes s) at 2 3. intros R HR. unfold conn_close. repeat frame1. Qed.
#[export] Instance kp_fl_reset_conn_close c : Keeps fl_reset (conn_close c).
Proof. intro s. generalize (eq_refl (fl_reset s)). generalize (fl_reset s) at 2 3. intros R HR. unfold conn_close. repeat frame1. Qed.
#[export] Instance kp_fl_gcreset_conn_close c : Keeps fl_gcreset (conn_close c).
Proof. intro s. generalize (eq_refl (fl_gcreset s)). generalize (fl_gcreset s) at 2 3. intros R HR. unfold conn_close. repeat frame1. Qed.
#[export] Instance kp_fl_act_conn_close c : Keeps fl_act (conn_close c).
Proof. intro s. generalize (eq_refl (fl_act s)). generalize (fl_act s) at 2 3. intros R HR. unfold conn_close. repeat frame1. Qed.
#[export] Instance kp_fl_preg_conn_close c : Keeps fl_preg (conn_close c).
Proof. intro s. generalize (eq_refl (fl_preg s)). generalize (fl_preg s) at 2 3. intros R HR. unfold conn_close. repeat frame1. Qed.
#[export] Instance kp_fl_self_conn_close c : Keeps fl_self (conn_close c).
Proof. intro s. generalize (eq_refl (fl_self s)). generalize (fl_self s) at 2 3. intros R HR. unfold conn_close. repeat frame1. Qed.
#[export] Instance kp_fl_gce_conn_close c : Keeps fl_gce (conn_close c).
Proof. intro s. generalize (eq_refl (fl_gce s)). generalize (fl_gce s) at 2 3. intros R HR. unfold conn_close. repeat frame1. Qed.
#[export] Instance kp_fl_gcc_conn_close c : Keeps fl_gcc (conn_close c).
Proof. intro s. generalize (eq_refl (fl_gcc s)). generalize (fl_gcc s) at 2 3. intros R HR. unfold conn_close. repeat frame1. Qed.
#[export] Instance kp_sec_conn_close c : Keeps sec (conn_close c).
Proof. intro s. generalize (eq_refl (sec s)). generalize (sec s) at 2 3. intros R HR. unfold conn_close. repeat frame1. Qed.
#[export] Instance kp_pings_conn_close c : Keeps pings (conn_close c).
Proof. intro s. generalize (eq_refl (pings s)). generalize (pings s) at 2 3. intros R HR. unfold conn_close. repeat frame1. Qed.
#[export] Instance kp_pend_conn_close c : Keeps pend (conn_close c).
Proof. intro s. generalize (eq_refl (pend s)). generalize (pend s) at 2 3. intros R HR. unfold conn_close. repeat frame1. Qed.
#[export] Instance kp_lpend_conn_close c : Keeps lpend (conn_close c).
Proof. intro s. generalize (eq_refl (lpend s)). generalize (lpend s) at 2 3. intros R HR. unfold conn_close. repeat frame1. Qed.
#[export] Instance kp_gce_conn_close c : Keeps gce (conn_close c).
Proof. intro s. generalize (eq_refl (gce s)). generalize (gce s) at 2 3. intros R HR. unfold conn_close. repeat frame1. Qed.
#[export] Instance kp_gcc_conn_close c : Keeps gcc (conn_close c).
Proof. intro s. generalize (eq_refl (gcc s)). generalize (gcc s) at 2 3. intros R HR. unfold conn_close. repeat frame1. Qed.
#[export] Instance kp_seqn_conn_close c : Keeps seqn (conn_close c).
Proof. intro s. generalize (eq_refl (seqn s)). generalize (seqn s) at 2 3. intros R HR. unfold conn_close. repeat frame1. Qed.
#[export] Instance kp_qdata_conn_close c : Keeps qdata (conn_close c).
Proof. intro s. generalize (eq_refl (qdata s)). generalize (qdata s) at 2 3. intros R HR. unfold conn_close. repeat frame1. Qed.
#[export] Instance kp_qcmd_conn_close c : Keeps qcmd (conn_close c).
Proof. intro s. generalize (eq_refl (qcmd s)). generalize (qcmd s) at 2 3. intros R HR. unfold conn_close. repeat frame1. Qed.
#[export] Instance kp_nextc_conn_close c : Keeps nextc (conn_close c).
Proof. intro s. generalize (eq_refl (nextc s)). generalize (nextc s) at 2 3. intros R HR. unfold conn_close. repeat frame1. Qed.
#[export] Instance kp_es_conn_close c : Keeps es (conn_close c).
Proof. intro s. generalize (eq_refl (es s)). generalize (es s) at 2 3. intros R HR. unfold conn_close. repeat frame1. Qed.
#[export] Instance kp_nexte_conn_close c : Keeps nexte (conn_close c).
Proof. intro s. generalize (eq_refl (nexte s)). generalize (nexte s) at 2 3. intros R HR. unfold conn_close. repeat frame1. Qed.
#[export] Instance kp_orc_conn_close c : Keeps orc (conn_close c).
Proof. intro s. generalize (eq_refl (orc s)). generalize (orc s) at 2 3. intros R HR. unfold conn_close. repeat frame1. Qed.
#[export] Instance kp_salts_conn_close c : Keeps salts (conn_close c).
Proof. intro s. generalize (eq_refl (salts s)). generalize (salts s) at 2 3. intros R HR. unfold conn_close. repeat frame1. Qed.

#[export] Instance kp_cf_conn_fin c : Keeps cf (conn_fin c).
Proof. intro s. generalize (eq_refl (cf s)). generalize (cf s) at 2 3. intros R HR. unfold conn_fin. repeat frame1. Qed.
#[export] Instance kp_nst_conn_fin c : Keeps nst (conn_fin c).
Proof. intro s. generalize (eq_refl (nst s)). generalize (nst s) at 2 3. intros R HR. unfold conn_fin. repeat frame1. Qed.
#[export] Instance kp_self_conn_fin c : Keeps self (conn_fin c).
Proof. intro s. generalize (eq_refl (self s)). generalize (self s) at 2 3. intros R HR. unfold conn_fin. repeat frame1. Qed.
#[export] Instance kp_parent_conn_fin c : Keeps parent (conn_fin c).
Proof. intro s. generalize (eq_refl (parent s)). generalize (parent s) at 2 3. intros R HR. unfold conn_fin. repeat frame1. Qed.
#[export] Instance kp_routes_conn_fin c : Keeps routes (conn_fin c).
Proof. intro s. generalize (eq_refl (routes s)). generalize (routes s) at 2 3. intros R HR. unfold conn_fin. repeat frame1. Qed.
#[export] Instance kp_fl_reset_conn_fin c : Keeps fl_reset (conn_fin c).
Proof. intro s. generalize (eq_refl (fl_reset s)). generalize (fl_reset s) at 2 3. intros R HR. unfold conn_fin. repeat frame1. Qed.
#[export] Instance kp_fl_gcreset_conn_fin c : Keeps fl_gcreset (conn_fin c).
Proof. intro s. generalize (eq_refl (fl_gcreset s)). generalize (fl_gcreset s) at 2 3. intros R HR. unfold conn_fin. repeat frame1. Qed.
#[export] Instance kp_fl_act_conn_fin c : Keeps fl_act (conn_fin c).
Proof. intro s. generalize (eq_refl (fl_act s)). generalize (fl_act s) at 2 3. intros R HR. unfold conn_fin. repeat frame1. Qed.
#[export] Instance kp_fl_preg_conn_fin c : Keeps fl_preg (conn_fin c).
Proof. intro s. generalize (eq_refl (fl_preg s)). generalize (fl_preg s) at 2 3. intros R HR. unfold conn_fin. repeat frame1. Qed.
#[export] Instance kp_fl_shut_conn_fin c : Keeps fl_shut (conn_fin c).
Proof. intro s. generalize (eq_refl (fl_shut s)). generalize (fl_shut s) at 2 3. intros R HR. unfold conn_fin. repeat frame1. Qed.
#[export] Instance kp_fl_self_conn_fin c : Keeps fl_self (conn_fin c).
Proof. intro s. generalize (eq_refl (fl_self s)). generalize (fl_self s) at 2 3. intros R HR. unfold conn_fin. repeat frame1. Qed.
#[export] Instance kp_fl_gce_conn_fin c : Keeps fl_gce (conn_fin c).
Proof. intro s. generalize (eq_refl (fl_gce s)). generalize (fl_gce s) at 2 3. intros R HR. unfold conn_fin. repeat frame1. Qed.
#[export] Instance kp_fl_gcc_conn_fin c : Keeps fl_gcc (conn_fin c).
Proof. intro s. generalize (eq_refl (fl_gcc s)). generalize (fl_gcc s) at 2 3. intros R HR. unfold conn_fin. repeat frame1. Qed.
#[export] Instance kp_sec_conn_fin c : Keeps sec (conn_fin c).
Proof. intro s. generalize (eq_refl (sec s)). generalize (sec s) at 2 3. intros R HR. unfold conn_fin. repeat frame1. Qed.
#[export] Instance kp_popr_conn_fin c : Keeps popr (conn_fin c).
Proof. intro s. generalize (eq_refl (popr s)). generalize (popr s) at 2 3. intros R HR. unfold conn_fin. repeat frame1. Qed.
#[export] Instance kp_connecting_conn_fin c : Keeps connecting (conn_fin c).
Proof. intro s. generalize (eq_refl (connecting s)). generalize (connecting s) at 2 3. intros R HR. unfold conn_fin. repeat frame1. Qed.
#[export] Instance kp_pings_conn_fin c : Keeps pings (conn_fin c).
Proof. intro s. generalize (eq_refl (pings s)). generalize (pings s) at 2 3. intros R HR. unfold conn_fin. repeat frame1. Qed.
#[export] Instance kp_pend_conn_fin c : Keeps pend (conn_fin c).
Proof. intro s. generalize (eq_refl (pend s)). generalize (pend s) at 2 3. intros R HR. unfold conn_fin. repeat frame1. Qed.
#[export] Instance kp_lpend_conn_fin c : Keeps lpend (conn_fin c).
Proof. intro s. generalize (eq_refl (lpend s)). generalize (lpend s) at 2 3. intros R HR. unfold conn_fin. repeat frame1. Qed.
#[export] Instance kp_gce_conn_fin c : Keeps gce (conn_fin c).
Proof. intro s. generalize (eq_refl (gce s)). generalize (gce s) at 2 3. intros R HR. unfold conn_fin. repeat frame1. Qed.
#[export] Instance kp_procs_conn_fin c : Keeps procs (conn_fin c).
Proof. intro s. generalize (eq_refl (procs s)). generalize (procs s) at 2 3. intros R HR. unfold conn_fin. repeat frame1. Qed.
#[export] Instance kp_seqn_conn_fin c : Keeps seqn (conn_fin c).
Proof. intro s. generalize (eq_refl (seqn s)). generalize (seqn s) at 2 3. intros R HR. unfold conn_fin. repeat frame1. Qed.
#[export] Instance kp_qdata_conn_fin c : Keeps qdata (conn_fin c).
Proof. intro s. generalize (eq_refl (qdata s)). generalize (qdata s) at 2 3. intros R HR. unfold conn_fin. repeat frame1. Qed.
#[export] Instance kp_qcmd_conn_fin c : Keeps qcmd (conn_fin c).
Proof. intro s. generalize (eq_refl (qcmd s)). generalize (qcmd s) at 2 3. intros R HR. unfold conn_fin. repeat frame1. Qed.
#[export] Instance kp_nextc_conn_fin c : Keeps nextc (conn_fin c).
Proof. intro s. generalize (eq_refl (nextc s)). generalize (nextc s) at 2 3. intros R HR. unfold conn_fin. repeat frame1. Qed.
#[export] Instance kp_es_conn_fin c : Keeps es (conn_fin c).
Proof. intro s. generalize (eq_refl (es s)). generalize (es s) at 2 3. intros R HR. unfold conn_fin. repeat frame1. Qed.
#[export] Instance kp_nexte_conn_fin c : Keeps nexte (conn_fin c).
Proof. intro s. generalize (eq_refl (nexte s)). generalize (nexte s) at 2 3. intros R HR. unfold conn_fin. repeat frame1. Qed.
#[export] Instance kp_orc_conn_fin c : Keeps orc (conn_fin c).
Proof. intro s. generalize (eq_refl (orc s)). generalize (orc s) at 2 3. intros R HR. unfold conn_fin. repeat frame1. Qed.
#[export] Instance kp_salts_conn_fin c : Keeps salts (conn_fin c).
Proof. intro s. generalize (eq_refl (salts s)). generalize (salts s) at 2 3. intros R HR. unfold conn_fin. repeat frame1. Qed.
#[export] Instance kp_log_conn_fin c : Keeps log (conn_fin c).
Proof. intro s. generalize (eq_refl (log s)). generalize (log s) at 2 3. intros R HR. unfold conn_fin. repeat frame1. Qed.

#[export] Instance kp_cf_conn_reset_in c : Keeps cf (conn_reset_in c).
Proof. intro s. generalize (eq_refl (cf s)). generalize (cf s) at 2 3. intros R HR. unfold conn_reset_in. repeat frame1. Qed.
#[export] Instance kp_self_conn_reset_in c : Keeps self (conn_reset_in c).
Proof. intro s. generalize (eq_refl (self s)). generalize (self s) at 2 3. intros R HR. unfold conn_reset_in. repeat frame1. Qed.
#[export] Instance kp_parent_conn_reset_in c : Keeps parent (conn_reset_in c).
Proof. intro s. generalize (eq_refl (parent s)). generalize (parent s) at 2 3. intros R HR. unfold conn_reset_in. repeat frame1. Qed.
#[export] Instance kp_routes_conn_reset_in c : Keeps routes (conn_reset_in c).
Proof. intro s. generalize (eq_refl (routes s)). generalize (routes s) at 2 3. intros R HR. unfold conn_reset_in. repeat frame1. Qed.
#[export] Instance kp_fl_reset_conn_reset_in c : Keeps fl_reset (conn_reset_in c).
Proof. intro s. generalize (eq_refl (fl_reset s)). generalize (fl_reset s) at 2 3. intros R HR. unfold conn_reset_in. repeat frame1. Qed.
#[export] Instance kp_fl_gcreset_conn_reset_in c : Keeps fl_gcreset (conn_reset_in c).
Proof. intro s. generalize (eq_refl (fl_gcreset s)). generalize (fl_gcreset s) at 2 3. intros R HR. unfold conn_reset_in. repeat frame1. Qed.
#[export] Instance kp_fl_act_conn_reset_in c : Keeps fl_act (conn_reset_in c).
Proof. intro s. generalize (eq_refl (fl_act s)). generalize (fl_act s) at 2 3. intros R HR. unfold conn_reset_in. repeat frame1. Qed.
#[export] Instance kp_fl_preg_conn_reset_in c : Keeps fl_preg (conn_reset_in c).
Proof. intro s. generalize (eq_refl (fl_preg s)). generalize (fl_preg s) at 2 3. intros R HR. unfold conn_reset_in. repeat frame1. Qed.
#[export] Instance kp_fl_self_conn_reset_in c : Keeps fl_self (conn_reset_in c).
Proof. intro s. generalize (eq_refl (fl_self s)). generalize (fl_self s) at 2 3. intros R HR. unfold conn_reset_in. repeat frame1. Qed.
#[export] Instance kp_fl_gce_conn_reset_in c : Keeps fl_gce (conn_reset_in c).
Proof. intro s. generalize (eq_refl (fl_gce s)). generalize (fl_gce s) at 2 3. intros R HR. unfold conn_reset_in. repeat frame1. Qed.
#[export] Instance kp_fl_gcc_conn_reset_in c : Keeps fl_gcc (conn_reset_in c).
Proof. intro s. generalize (eq_refl (fl_gcc s)). generalize (fl_gcc s) at 2 3. intros R HR. unfold conn_reset_in. repeat frame1. Qed.
#[export] Instance kp_sec_conn_reset_in c : Keeps sec (conn_reset_in c).
Proof. intro s. generalize (eq_refl (sec s)). generalize (sec s) at 2 3. intros R HR. unfold conn_reset_in. repeat frame1. Qed.
#[export] Instance kp_pings_conn_reset_in c : Keeps pings (conn_reset_in c).
Proof. intro s. generalize (eq_refl (pings s)). generalize (pings s) at 2 3. intros R HR. unfold conn_reset_in. repeat frame1. Qed.
#[export] Instance kp_pend_conn_reset_in c : Keeps pend (conn_reset_in c).
Proof. intro s. generalize (eq_refl (pend s)). generalize (pend s) at 2 3. intros R HR. unfold conn_reset_in. repeat frame1. Qed.
#[export] Instance kp_lpend_conn_reset_in c : Keeps lpend (conn_reset_in c).
Proof. intro s. generalize (eq_refl (lpend s)). generalize (lpend s) at 2 3. intros R HR. unfold conn_reset_in. repeat frame1. Qed.
#[export] Instance kp_gce_conn_reset_in c : Keeps gce (conn_reset_in c).
Proof. intro s. generalize (eq_refl (gce s)). generalize (gce s) at 2 3. intros R HR. unfold conn_reset_in. repeat frame1. Qed.
#[export] Instance kp_seqn_conn_reset_in c : Keeps seqn (conn_reset_in c).
Proof. intro s. generalize (eq_refl (seqn s)). generalize (seqn s) at 2 3. intros R HR. unfold conn_reset_in. repeat frame1. Qed.
#[export] Instance kp_qdata_conn_reset_in c : Keeps qdata (conn_reset_in c).
Proof. intro s. generalize (eq_refl (qdata s)). generalize (qdata s) at 2 3. intros R HR. unfold conn_reset_in. repeat frame1. Qed.
#[export] Instance kp_qcmd_conn_reset_in c : Keeps qcmd (conn_reset_in c).
Proof. intro s. generalize (eq_refl (qcmd s)). generalize (qcmd s) at 2 3. intros R HR. unfold conn_reset_in. repeat frame1. Qed.
#[export] Instance kp_nextc_conn_reset_in c : Keeps nextc (conn_reset_in c).
Proof. intro s. generalize (eq_refl (nextc s)). generalize (nextc s) at 2 3. intros R HR. unfold conn_reset_in. repeat frame1. Qed.
#[export] Instance kp_es_conn_reset_in c : Keeps es (conn_reset_in c).
Proof. intro s. generalize (eq_refl (es s)). generalize (es s) at 2 3. intros R HR. unfold conn_reset_in. repeat frame1. Qed.
#[export] Instance kp_nexte_conn_reset_in c : Keeps nexte (conn_reset_in c).
Proof. intro s. generalize (eq_refl (nexte s)). generalize (nexte s) at 2 3. intros R HR. unfold conn_reset_in. repeat frame1. Qed.
#[export] Instance kp_orc_conn_reset_in c : Keeps orc (conn_reset_in c).
Proof. intro s. generalize (eq_refl (orc s)). generalize (orc s) at 2 3. intros R HR. unfold conn_reset_in. repeat frame1. Qed.
#[export] Instance kp_salts_conn_reset_in c : Keeps salts (conn_reset_in c).
Proof. intro s. generalize (eq_refl (salts s)). generalize (salts s) at 2 3. intros R HR. unfold conn_reset_in. repeat frame1. Qed.

#[export] Instance kp_cf_clear_ping e : Keeps cf (clear_ping e).
Proof. intro s. generalize (eq_refl (cf s)). generalize (cf s) at 2 3. intros R HR. unfold clear_ping. repeat frame1. Qed.
#[export] Instance kp_nst_clear_ping e : Keeps nst (clear_ping e).
Proof. intro s. generalize (eq_refl (nst s)). generalize (nst s) at 2 3. intros R HR. unfold clear_ping. repeat frame1. Qed.
#[export] Instance kp_self_clear_ping e : Keeps self (clear_ping e).
Proof. intro s. generalize (eq_refl (self s)). generalize (self s) at 2 3. intros R HR. unfold clear_ping. repeat frame1. Qed.
#[export] Instance kp_parent_clear_ping e : Keeps parent (clear_ping e).
Proof. intro s. generalize (eq_refl (parent s)). generalize (parent s) at 2 3. intros R HR. unfold clear_ping. repeat frame1. Qed.
#[export] Instance kp_routes_clear_ping e : Keeps routes (clear_ping e).
Proof. intro s. generalize (eq_refl (routes s)). generalize (routes s) at 2 3. intros R HR. unfold clear_ping. repeat frame1. Qed.
#[export] Instance kp_fl_reset_clear_ping e : Keeps fl_reset (clear_ping e).
Proof. intro s. generalize (eq_refl (fl_reset s)). generalize (fl_reset s) at 2 3. intros R HR. unfold clear_ping. repeat frame1. Qed.
#[export] Instance kp_fl_gcreset_clear_ping e : Keeps fl_gcreset (clear_ping e).
Proof. intro s. generalize (eq_refl (fl_gcreset s)). generalize (fl_gcreset s) at 2 3. intros R HR. unfold clear_ping. repeat frame1. Qed.
#[export] Instance kp_fl_act_clear_ping e : Keeps fl_act (clear_ping e).
Proof. intro s. generalize (eq_refl (fl_act s)). generalize (fl_act s) at 2 3. intros R HR. unfold clear_ping. repeat frame1. Qed.
#[export] Instance kp_fl_preg_clear_ping e : Keeps fl_preg (clear_ping e).
Proof. intro s. generalize (eq_refl (fl_preg s)). generalize (fl_preg s) at 2 3. intros R HR. unfold clear_ping. repeat frame1. Qed.
#[export] Instance kp_fl_shut_clear_ping e : Keeps fl_shut (clear_ping e).
Proof. intro s. generalize (eq_refl (fl_shut s)). generalize (fl_shut s) at 2 3. intros R HR. unfold clear_ping. repeat frame1. Qed.
#[export] Instance kp_fl_self_clear_ping e : Keeps fl_self (clear_ping e).
Proof. intro s. generalize (eq_refl (fl_self s)). generalize (fl_self s) at 2 3. intros R HR. unfold clear_ping. repeat frame1. Qed.
#[export] Instance kp_fl_gce_clear_ping e : Keeps fl_gce (clear_ping e).
Proof. intro s. generalize (eq_refl (fl_gce s)). generalize (fl_gce s) at 2 3. intros R HR. unfold clear_ping. repeat frame1. Qed.
#[export] Instance kp_fl_gcc_clear_ping e : Keeps fl_gcc (clear_ping e).
Proof. intro s. generalize (eq_refl (fl_gcc s)). generalize (fl_gcc s) at 2 3. intros R HR. unfold clear_ping. repeat frame1. Qed.
#[export] Instance kp_sec_clear_ping e : Keeps sec (clear_ping e).
Proof. intro s. generalize (eq_refl (sec s)). generalize (sec s) at 2 3. intros R HR. unfold clear_ping. repeat frame1. Qed.
#[export] Instance kp_popr_clear_ping e : Keeps popr (clear_ping e).
Proof. intro s. generalize (eq_refl (popr s)). generalize (popr s) at 2 3. intros R HR. unfold clear_ping. repeat frame1. Qed.
#[export] Instance kp_connecting_clear_ping e : Keeps connecting (clear_ping e).
Proof. intro s. generalize (eq_refl (connecting s)). generalize (connecting s) at 2 3. intros R HR. unfold clear_ping. repeat frame1. Qed.
#[export] Instance kp_pend_clear_ping e : Keeps pend (clear_ping e).
Proof. intro s. generalize (eq_refl (pend s)). generalize (pend s) at 2 3. intros R HR. unfold clear_ping. repeat frame1. Qed.
#[export] Instance kp_lpend_clear_ping e : Keeps lpend (clear_ping e).
Proof. intro s. generalize (eq_refl (lpend s)). generalize (lpend s) at 2 3. intros R HR. unfold clear_ping. repeat frame1. Qed.
#[export] Instance kp_gce_clear_ping e : Keeps gce (clear_ping e).
Proof. intro s. generalize (eq_refl (gce s)). generalize (gce s) at 2 3. intros R HR. unfold clear_ping. repeat frame1. Qed.
#[export] Instance kp_gcc_clear_ping e : Keeps gcc (clear_ping e).
Proof. intro s. generalize (eq_refl (gcc s)). generalize (gcc s) at 2 3. intros R HR. unfold clear_ping. repeat frame1. Qed.
#[export] Instance kp_procs_clear_ping e : Keeps procs (clear_ping e).
Proof. intro s. generalize (eq_refl (procs s)). generalize (procs s) at 2 3. intros R HR. unfold clear_ping. repeat frame1. Qed.
#[export] Instance kp_seqn_clear_ping e : Keeps seqn (clear_ping e).
Proof. intro s. generalize (eq_refl (seqn s)). generalize (seqn s) at 2 3. intros R HR. unfold clear_ping. repeat frame1. Qed.
#[export] Instance kp_qdata_clear_ping e : Keeps qdata (clear_ping e).
Proof. intro s. generalize (eq_refl (qdata s)). generalize (qdata s) at 2 3. intros R HR. unfold clear_ping. repeat frame1. Qed.
#[export] Instance kp_qcmd_clear_ping e : Keeps qcmd (clear_ping e).
Proof. intro s. generalize (eq_refl (qcmd s)). generalize (qcmd s) at 2 3. intros R HR. unfold clear_ping. repeat frame1. Qed.
#[export] Instance kp_cs_clear_ping e : Keeps cs (clear_ping e).
Proof. intro s. generalize (eq_refl (cs s)). generalize (cs s) at 2 3. intros R HR. unfold clear_ping. repeat frame1. Qed.
#[export] Instance kp_nextc_clear_ping e : Keeps nextc (clear_ping e).
Proof. intro s. generalize (eq_refl (nextc s)). generalize (nextc s) at 2 3. intros R HR. unfold clear_ping. repeat frame1. Qed.
#[export] Instance kp_nexte_clear_ping e : Keeps nexte (clear_ping e).
Proof. intro s. generalize (eq_refl (nexte s)). generalize (nexte s) at 2 3. intros R HR. unfold clear_ping. repeat frame1. Qed.
#[export] Instance kp_orc_clear_ping e : Keeps orc (clear_ping e).
Proof. intro s. generalize (eq_refl (orc s)). generalize (orc s) at 2 3. intros R HR. unfold clear_ping. repeat frame1. Qed.
#[export] Instance kp_salts_clear_ping e : Keeps salts (clear_ping e).
Proof. intro s. generalize (eq_refl (salts s)). generalize (salts s) at 2 3. intros R HR. unfold clear_ping. repeat frame1. Qed.
#[export] Instance kp_log_clear_ping e : Keeps log (clear_ping e).
Proof. intro s. generalize (eq_refl (log s)). generalize (log s) at 2 3. intros R HR. unfold clear_ping. repeat frame1. Qed.

#[export] Instance kp_cf_insert_ping e : Keeps cf (insert_ping e).
Proof. intro s. generalize (eq_refl (cf s)). generalize (cf s) at 2 3. intros R HR. unfold insert_ping. repeat frame1. Qed.
#[export] Instance kp_nst_insert_ping e : Keeps nst (insert_ping e).
Proof. intro s. generalize (eq_refl (nst s)). generalize (nst s) at 2 3. intros R HR. unfold insert_ping. repeat frame1. Qed.
#[export] Instance kp_self_insert_ping e : Keeps self (insert_ping e).
Proof. intro s. generalize (eq_refl (self s)). generalize (self s) at 2 3. intros R HR. unfold insert_ping. repeat frame1. Qed.
#[export] Instance kp_parent_insert_ping e : Keeps parent (insert_ping e).
Proof. intro s. generalize (eq_refl (parent s)). generalize (parent s) at 2 3. intros R HR. unfold insert_ping. repeat frame1. Qed.
#[export] Instance kp_routes_insert_ping e : Keeps routes (insert_ping e).
Proof. intro s. generalize (eq_refl (routes s)). generalize (routes s) at 2 3. intros R HR. unfold insert_ping. repeat frame1. Qed.
#[export] Instance kp_fl_reset_insert_ping e : Keeps fl_reset (insert_ping e).
Proof. intro s. generalize (eq_refl (fl_reset s)). generalize (fl_reset s) at 2 3. intros R HR. unfold insert_ping. repeat frame1. Qed.
#[export] Instance kp_fl_gcreset_insert_ping e : Keeps fl_gcreset (insert_ping e).
Proof. intro s. generalize (eq_refl (fl_gcreset s)). generalize (fl_gcreset s) at 2 3. intros R HR. unfold insert_ping. repeat frame1. Qed.
#[export] Instance kp_fl_act_insert_ping e : Keeps fl_act (insert_ping e).
Proof. intro s. generalize (eq_refl (fl_act s)). generalize (fl_act s) at 2 3. intros R HR. unfold insert_ping. repeat frame1. Qed.
#[export] Instance kp_fl_preg_insert_ping e : Keeps fl_preg (insert_ping e).
Proof. intro s. generalize (eq_refl (fl_preg s)). generalize (fl_preg s) at 2 3. intros R HR. unfold insert_ping. repeat frame1. Qed.
#[export] Instance kp_fl_shut_insert_ping e : Keeps fl_shut (insert_ping e).
Proof. intro s. generalize (eq_refl (fl_shut s)). generalize (fl_shut s) at 2 3. intros R HR. unfold insert_ping. repeat frame1. Qed.
#[export] Instance kp_fl_self_insert_ping e : Keeps fl_self (insert_ping e).
Proof. intro s. generalize (eq_refl (fl_self s)). generalize (fl_self s) at 2 3. intros R HR. unfold insert_ping. repeat frame1. Qed.
#[export] Instance kp_fl_gce_insert_ping e : Keeps fl_gce (insert_ping e).
Proof. intro s. generalize (eq_refl (fl_gce s)). generalize (fl_gce s) at 2 3. intros R HR. unfold insert_ping. repeat frame1. Qed.
#[export] Instance kp_fl_gcc_insert_ping e : Keeps fl_gcc (insert_ping e).
Proof. intro s. generalize (eq_refl (fl_gcc s)). generalize (fl_gcc s) at 2 3. intros R HR. unfold insert_ping. repeat frame1. Qed.
#[export] Instance kp_sec_insert_ping e : Keeps sec (insert_ping e).
Proof. intro s. generalize (eq_refl (sec s)). generalize (sec s) at 2 3. intros R HR. unfold insert_ping. repeat frame1. Qed.
#[export] Instance kp_popr_insert_ping e : Keeps popr (insert_ping e).
Proof. intro s. generalize (eq_refl (popr s)). generalize (popr s) at 2 3. intros R HR. unfold insert_ping. repeat frame1. Qed.
#[export] Instance kp_connecting_insert_ping e : Keeps connecting (insert_ping e).
Proof. intro s. generalize (eq_refl (connecting s)). generalize (connecting s) at 2 3. intros R HR. unfold insert_ping. repeat frame1. Qed.
#[export] Instance kp_pend_insert_ping e : Keeps pend (insert_ping e).
Proof. intro s. generalize (eq_refl (pend s)). generalize (pend s) at 2 3. intros R HR. unfold insert_ping. repeat frame1. Qed.
#[export] Instance kp_lpend_insert_ping e : Keeps lpend (insert_ping e).
Proof. intro s. generalize (eq_refl (lpend s)). generalize (lpend s) at 2 3. intros R HR. unfold insert_ping. repeat frame1. Qed.
#[export] Instance kp_gce_insert_ping e : Keeps gce (insert_ping e).
Proof. intro s. generalize (eq_refl (gce s)). generalize (gce s) at 2 3. intros R HR. unfold insert_ping. repeat frame1. Qed.
#[export] Instance kp_gcc_insert_ping e : Keeps gcc (insert_ping e).
Proof. intro s. generalize (eq_refl (gcc s)). generalize (gcc s) at 2 3. intros R HR. unfold insert_ping. repeat frame1. Qed.
#[export] Instance kp_procs_insert_ping e : Keeps procs (insert_ping e).
Proof. intro s. generalize (eq_refl (procs s)). generalize (procs s) at 2 3. intros R HR. unfold insert_ping. repeat frame1. Qed.
#[export] Instance kp_seqn_insert_ping e : Keeps seqn (insert_ping e).
Proof. intro s. generalize (eq_refl (seqn s)). generalize (seqn s) at 2 3. intros R HR. unfold insert_ping. repeat frame1. Qed.
#[export] Instance kp_qdata_insert_ping e : Keeps qdata (insert_ping e).
Proof. intro s. generalize (eq_refl (qdata s)). generalize (qdata s) at 2 3. intros R HR. unfold insert_ping. repeat frame1. Qed.
#[export] Instance kp_qcmd_insert_ping e : Keeps qcmd (insert_ping e).
Proof. intro s. generalize (eq_refl (qcmd s)). generalize (qcmd s) at 2 3. intros R HR. unfold insert_ping. repeat frame1. Qed.
#[export] Instance kp_cs_insert_ping e : Keeps cs (insert_ping e).
Proof. intro s. generalize (eq_refl (cs s)). generalize (cs s) at 2 3. intros R HR. unfold insert_ping. repeat frame1. Qed.
#[export] Instance kp_nextc_insert_ping e : Keeps nextc (insert_ping e).
Proof. intro s. generalize (eq_refl (nextc s)). generalize (nextc s) at 2 3. intros R HR. unfold insert_ping. repeat frame1. Qed.
#[export] Instance kp_nexte_insert_ping e : Keeps nexte (insert_ping e).
Proof. intro s. generalize (eq_refl (nexte s)). generalize (nexte s) at 2 3. intros R HR. unfold insert_ping. repeat frame1. Qed.
#[export] Instance kp_orc_insert_ping e : Keeps orc (insert_ping e).
Proof. intro s. generalize (eq_refl (orc s)). generalize (orc s) at 2 3. intros R HR. unfold insert_ping. repeat frame1. Qed.
#[export] Instance kp_salts_insert_ping e : Keeps salts (insert_ping e).
Proof. intro s. generalize (eq_refl (salts s)). generalize (salts s) at 2 3. intros R HR. unfold insert_ping. repeat frame1. Qed.
#[export] Instance kp_log_insert_ping e : Keeps log (insert_ping e).
Proof. intro s. generalize (eq_refl (log s)). generalize (log s) at 2 3. intros R HR. unfold insert_ping. repeat frame1. Qed.

#[export] Instance kp_cf_add_ping e : Keeps cf (add_ping e).
Proof. intro s. generalize (eq_refl (cf s)). generalize (cf s) at 2 3. intros R HR. unfold add_ping. repeat frame1. Qed.
#[export] Instance kp_nst_add_ping e : Keeps nst (add_ping e).
Proof. intro s. generalize (eq_refl (nst s)). generalize (nst s) at 2 3. intros R HR. unfold add_ping. repeat frame1. Qed.
#[export] Instance kp_self_add_ping e : Keeps self (add_ping e).
Proof. intro s. generalize (eq_refl (self s)). generalize (self s) at 2 3. intros R HR. unfold add_ping. repeat frame1. Qed.
#[export] Instance kp_parent_add_ping e : Keeps parent (add_ping e).
Proof. intro s. generalize (eq_refl (parent s)). generalize (parent s) at 2 3. intros R HR. unfold add_ping. repeat frame1. Qed.
#[export] Instance kp_routes_add_ping e : Keeps routes (add_ping e).
Proof. intro s. generalize (eq_refl (routes s)). generalize (routes s) at 2 3. intros R HR. unfold add_ping. repeat frame1. Qed.
#[export] Instance kp_fl_reset_add_ping e : Keeps fl_reset (add_ping e).
Proof. intro s. generalize (eq_refl (fl_reset s)). generalize (fl_reset s) at 2 3. intros R HR. unfold add_ping. repeat frame1. Qed.
#[export] Instance kp_fl_gcreset_add_ping e : Keeps fl_gcreset (add_ping e).
Proof. intro s. generalize (eq_refl (fl_gcreset s)). generalize (fl_gcreset s) at 2 3. intros R HR. unfold add_ping. repeat frame1. Qed.
#[export] Instance kp_fl_act_add_ping e : Keeps fl_act (add_ping e).
Proof. intro s. generalize (eq_refl (fl_act s)). generalize (fl_act s) at 2 3. intros R HR. unfold add_ping. repeat frame1. Qed.
#[export] Instance kp_fl_preg_add_ping e : Keeps fl_preg (add_ping e).
Proof. intro s. generalize (eq_refl (fl_preg s)). generalize (fl_preg s) at 2 3. intros R HR. unfold add_ping. repeat frame1. Qed.
#[export] Instance kp_fl_shut_add_ping e : Keeps fl_shut (add_ping e).
Proof. intro s. generalize (eq_refl (fl_shut s)). generalize (fl_shut s) at 2 3. intros R HR. unfold add_ping. repeat frame1. Qed.
#[export] Instance kp_fl_self_add_ping e : Keeps fl_self (add_ping e).
Proof. intro s. generalize (eq_refl (fl_self s)). generalize (fl_self s) at 2 3. intros R HR. unfold add_ping. repeat frame1. Qed.
#[export] Instance kp_fl_gce_add_ping e : Keeps fl_gce (add_ping e).
Proof. intro s. generalize (eq_refl (fl_gce s)). generalize (fl_gce s) at 2 3. intros R HR. unfold add_ping. repeat frame1. Qed.
#[export] Instance kp_fl_gcc_add_ping e : Keeps fl_gcc (add_ping e).
Proof. intro s. generalize (eq_refl (fl_gcc s)). generalize (fl_gcc s) at 2 3. intros R HR. unfold add_ping. repeat frame1. Qed.
#[export] Instance kp_sec_add_ping e : Keeps sec (add_ping e).
Proof. intro s. generalize (eq_refl (sec s)). generalize (sec s) at 2 3. intros R HR. unfold add_ping. repeat frame1. Qed.
#[export] Instance kp_popr_add_ping e : Keeps popr (add_ping e).
Proof. intro s. generalize (eq_refl (popr s)). generalize (popr s) at 2 3. intros R HR. unfold add_ping. repeat frame1. Qed.
#[export] Instance kp_connecting_add_ping e : Keeps connecting (add_ping e).
Proof. intro s. generalize (eq_refl (connecting s)). generalize (connecting s) at 2 3. intros R HR. unfold add_ping. repeat frame1. Qed.
#[export] Instance kp_pend_add_ping e : Keeps pend (add_ping e).
Proof. intro s. generalize (eq_refl (pend s)). generalize (pend s) at 2 3. intros R HR. unfold add_ping. repeat frame1. Qed.
#[export] Instance kp_lpend_add_ping e : Keeps lpend (add_ping e).
Proof. intro s. generalize (eq_refl (lpend s)). generalize (lpend s) at 2 3. intros R HR. unfold add_ping. repeat frame1. Qed.
#[export] Instance kp_gce_add_ping e : Keeps gce (add_ping e).
Proof. intro s. generalize (eq_refl (gce s)). generalize (gce s) at 2 3. intros R HR. unfold add_ping. repeat frame1. Qed.
#[export] Instance kp_gcc_add_ping e : Keeps gcc (add_ping e).
Proof. intro s. generalize (eq_refl (gcc s)). generalize (gcc s) at 2 3. intros R HR. unfold add_ping. repeat frame1. Qed.
#[export] Instance kp_procs_add_ping e : Keeps procs (add_ping e).
Proof. intro s. generalize (eq_refl (procs s)). generalize (procs s) at 2 3. intros R HR. unfold add_ping. repeat frame1. Qed.
#[export] Instance kp_seqn_add_ping e : Keeps seqn (add_ping e).
Proof. intro s. generalize (eq_refl (seqn s)). generalize (seqn s) at 2 3. intros R HR. unfold add_ping. repeat frame1. Qed.
#[export] Instance kp_qdata_add_ping e : Keeps qdata (add_ping e).
Proof. intro s. generalize (eq_refl (qdata s)). generalize (qdata s) at 2 3. intros R HR. unfold add_ping. repeat frame1. Qed.
#[export] Instance kp_qcmd_add_ping e : Keeps qcmd (add_ping e).
Proof. intro s. generalize (eq_refl (qcmd s)). generalize (qcmd s) at 2 3. intros R HR. unfold add_ping. repeat frame1. Qed.
#[export] Instance kp_cs_add_ping e : Keeps cs (add_ping e).
Proof. intro s. generalize (eq_refl (cs s)). generalize (cs s) at 2 3. intros R HR. unfold add_ping. repeat frame1. Qed.
#[export] Instance kp_nextc_add_ping e : Keeps nextc (add_ping e).
Proof. intro s. generalize (eq_refl (nextc s)). generalize (nextc s) at 2 3. intros R HR. unfold add_ping. repeat frame1. Qed.
#[export] Instance kp_nexte_add_ping e : Keeps nexte (add_ping e).
Proof. intro s. generalize (eq_refl (nexte s)). generalize (nexte s) at 2 3. intros R HR. unfold add_ping. repeat frame1. Qed.
#[export] Instance kp_orc_add_ping e : Keeps orc (add_ping e).
Proof. intro s. generalize (eq_refl (orc s)). generalize (orc s) at 2 3. intros R HR. unfold add_ping. repeat frame1. Qed.
#[export] Instance kp_salts_add_ping e : Keeps salts (add_ping e).
Proof. intro s. generalize (eq_refl (salts s)). generalize (salts s) at 2 3. intros R HR. unfold add_ping. repeat frame1. Qed.
#[export] Instance kp_log_add_ping e : Keeps log (add_ping e).
Proof. intro s. generalize (eq_refl (log s)). generalize (log s) at 2 3. intros R HR. unfold add_ping. repeat frame1. Qed.

#[export] Instance kp_cf_resets_in l : Keeps cf (resets_in l).
Proof.
  intro s. unfold resets_in. revert s. induction l as [|c l IH]; intro s; [reflexivity|].
  cbn [fold_left]. rewrite IH. apply keeps.
Qed.
#[export] Instance kp_self_resets_in l : Keeps self (resets_in l).
Proof.
  intro s. unfold resets_in. revert s. induction l as [|c l IH]; intro s; [reflexivity|].
  cbn [fold_left]. rewrite IH. apply keeps.
Qed.
#[export] Instance kp_parent_resets_in l : Keeps parent (resets_in l).
Proof.
  intro s. unfold resets_in. revert s. induction l as [|c l IH]; intro s; [reflexivity|].
  cbn [fold_left]. rewrite IH. apply keeps.
Qed.
#[export] Instance kp_routes_resets_in l : Keeps routes (resets_in l).
Proof.
  intro s. unfold resets_in. revert s. induction l as [|c l IH]; intro s; [reflexivity|].
  cbn [fold_left]. rewrite IH. apply keeps.
Qed.
#[export] Instance kp_fl_reset_resets_in l : Keeps fl_reset (resets_in l).
Proof.
  intro s. unfold resets_in. revert s. induction l as [|c l IH]; intro s; [reflexivity|].
  cbn [fold_left]. rewrite IH. apply keeps.
Qed.
#[export] Instance kp_fl_gcreset_resets_in l : Keeps fl_gcreset (resets_in l).
Proof.
  intro s. unfold resets_in. revert s. induction l as [|c l IH]; intro s; [reflexivity|].
  cbn [fold_left]. rewrite IH. apply keeps.
Qed.
#[export] Instance kp_fl_act_resets_in l : Keeps fl_act (resets_in l).
Proof.
  intro s. unfold resets_in. revert s. induction l as [|c l IH]; intro s; [reflexivity|].
  cbn [fold_left]. rewrite IH. apply keeps.
Qed.
#[export] Instance kp_fl_preg_resets_in l : Keeps fl_preg (resets_in l).
Proof.
  intro s. unfold resets_in. revert s. induction l as [|c l IH]; intro s; [reflexivity|].
  cbn [fold_left]. rewrite IH. apply keeps.
Qed.
#[export] Instance kp_fl_self_resets_in l : Keeps fl_self (resets_in l).
Proof.
  intro s. unfold resets_in. revert s. induction l as [|c l IH]; intro s; [reflexivity|].
  cbn [fold_left]. rewrite IH. apply keeps.
Qed.
#[export] Instance kp_fl_gce_resets_in l : Keeps fl_gce (resets_in l).
Proof.
  intro s. unfold resets_in. revert s. induction l as [|c l IH]; intro s; [reflexivity|].
  cbn [fold_left]. rewrite IH. apply keeps.
Qed.
#[export] Instance kp_fl_gcc_resets_in l : Keeps fl_gcc (resets_in l).
Proof.
  intro s. unfold resets_in. revert s. induction l as [|c l IH]; intro s; [reflexivity|].
  cbn [fold_left]. rewrite IH. apply keeps.
Qed.
#[export] Instance kp_sec_resets_in l : Keeps sec (resets_in l).
Proof.
  intro s. unfold resets_in. revert s. induction l as [|c l IH]; intro s; [reflexivity|].
  cbn [fold_left]. rewrite IH. apply keeps.
Qed.
#[export] Instance kp_pings_resets_in l : Keeps pings (resets_in l).
Proof.
  intro s. unfold resets_in. revert s. induction l as [|c l IH]; intro s; [reflexivity|].
  cbn [fold_left]. rewrite IH. apply keeps.
Qed.
#[export] Instance kp_pend_resets_in l : Keeps pend (resets_in l).
Proof.
  intro s. unfold resets_in. revert s. induction l as [|c l IH]; intro s; [reflexivity|].
  cbn [fold_left]. rewrite IH. apply keeps.
Qed.
#[export] Instance kp_lpend_resets_in l : Keeps lpend (resets_in l).
Proof.
  intro s. unfold resets_in. revert s. induction l as [|c l IH]; intro s; [reflexivity|].
  cbn [fold_left]. rewrite IH. apply keeps.
Qed.
#[export] Instance kp_gce_resets_in l : Keeps gce (resets_in l).
Proof.
  intro s. unfold resets_in. revert s. induction l as [|c l IH]; intro s; [reflexivity|].
  cbn [fold_left]. rewrite IH. apply keeps.
Qed.
#[export] Instance kp_seqn_resets_in l : Keeps seqn (resets_in l).
Proof.
  intro s. unfold resets_in. revert s. induction l as [|c l IH]; intro s; [reflexivity|].
  cbn [fold_left]. rewrite IH. apply keeps.
Qed.
#[export] Instance kp_qdata_resets_in l : Keeps qdata (resets_in l).
Proof.
  intro s. unfold resets_in. revert s. induction l as [|c l IH]; intro s; [reflexivity|].
  cbn [fold_left]. rewrite IH. apply keeps.
Qed.
#[export] Instance kp_qcmd_resets_in l : Keeps qcmd (resets_in l).
Proof.
  intro s. unfold resets_in. revert s. induction l as [|c l IH]; intro s; [reflexivity|].
  cbn [fold_left]. rewrite IH. apply keeps.
Qed.
#[export] Instance kp_nextc_resets_in l : Keeps nextc (resets_in l).
Proof.
  intro s. unfold resets_in. revert s. induction l as [|c l IH]; intro s; [reflexivity|].
  cbn [fold_left]. rewrite IH. apply keeps.
Qed.
#[export] Instance kp_es_resets_in l : Keeps es (resets_in l).
Proof.
  intro s. unfold resets_in. revert s. induction l as [|c l IH]; intro s; [reflexivity|].
  cbn [fold_left]. rewrite IH. apply keeps.
Qed.
#[export] Instance kp_nexte_resets_in l : Keeps nexte (resets_in l).
Proof.
  intro s. unfold resets_in. revert s. induction l as [|c l IH]; intro s; [reflexivity|].
  cbn [fold_left]. rewrite IH. apply keeps.
Qed.
#[export] Instance kp_orc_resets_in l : Keeps orc (resets_in l).
Proof.
  intro s. unfold resets_in. revert s. induction l as [|c l IH]; intro s; [reflexivity|].
  cbn [fold_left]. rewrite IH. apply keeps.
Qed.
#[export] Instance kp_salts_resets_in l : Keeps salts (resets_in l).
Proof.
  intro s. unfold resets_in. revert s. induction l as [|c l IH]; intro s; [reflexivity|].
  cbn [fold_left]. rewrite IH. apply keeps.
Qed.

#[export] Instance kp_cf_ep_reset b g e : Keeps cf (ep_reset b g e).
Proof. intro s. generalize (eq_refl (cf s)). generalize (cf s) at 2 3. intros R HR. unfold ep_reset. repeat frame1. Qed.
#[export] Instance kp_self_ep_reset b g e : Keeps self (ep_reset b g e).
Proof. intro s. generalize (eq_refl (self s)). generalize (self s) at 2 3. intros R HR. unfold ep_reset. repeat frame1. Qed.
#[export] Instance kp_parent_ep_reset b g e : Keeps parent (ep_reset b g e).
Proof. intro s. generalize (eq_refl (parent s)). generalize (parent s) at 2 3. intros R HR. unfold ep_reset. repeat frame1. Qed.
#[export] Instance kp_routes_ep_reset b g e : Keeps routes (ep_reset b g e).
Proof. intro s. generalize (eq_refl (routes s)). generalize (routes s) at 2 3. intros R HR. unfold ep_reset. repeat frame1. Qed.
#[export] Instance kp_fl_reset_ep_reset b g e : Keeps fl_reset (ep_reset b g e).
Proof. intro s. generalize (eq_refl (fl_reset s)). generalize (fl_reset s) at 2 3. intros R HR. unfold ep_reset. repeat frame1. Qed.
#[export] Instance kp_fl_gcreset_ep_reset b g e : Keeps fl_gcreset (ep_reset b g e).
Proof. intro s. generalize (eq_refl (fl_gcreset s)). generalize (fl_gcreset s) at 2 3. intros R HR. unfold ep_reset. repeat frame1. Qed.
#[export] Instance kp_fl_act_ep_reset b g e : Keeps fl_act (ep_reset b g e).
Proof. intro s. generalize (eq_refl (fl_act s)). generalize (fl_act s) at 2 3. intros R HR. unfold ep_reset. repeat frame1. Qed.
#[export] Instance kp_fl_preg_ep_reset b g e : Keeps fl_preg (ep_reset b g e).
Proof. intro s. generalize (eq_refl (fl_preg s)). generalize (fl_preg s) at 2 3. intros R HR. unfold ep_reset. repeat frame1. Qed.
#[export] Instance kp_fl_self_ep_reset b g e : Keeps fl_self (ep_reset b g e).
Proof. intro s. generalize (eq_refl (fl_self s)). generalize (fl_self s) at 2 3. intros R HR. unfold ep_reset. repeat frame1. Qed.
#[export] Instance kp_fl_gce_ep_reset b g e : Keeps fl_gce (ep_reset b g e).
Proof. intro s. generalize (eq_refl (fl_gce s)). generalize (fl_gce s) at 2 3. intros R HR. unfold ep_reset. repeat frame1. Qed.
#[export] Instance kp_fl_gcc_ep_reset b g e : Keeps fl_gcc (ep_reset b g e).
Proof. intro s. generalize (eq_refl (fl_gcc s)). generalize (fl_gcc s) at 2 3. intros R HR. unfold ep_reset. repeat frame1. Qed.
#[export] Instance kp_sec_ep_reset b g e : Keeps sec (ep_reset b g e).
Proof. intro s. generalize (eq_refl (sec s)). generalize (sec s) at 2 3. intros R HR. unfold ep_reset. repeat frame1. Qed.
#[export] Instance kp_pend_ep_reset b g e : Keeps pend (ep_reset b g e).
Proof. intro s. generalize (eq_refl (pend s)). generalize (pend s) at 2 3. intros R HR. unfold ep_reset. repeat frame1. Qed.
#[export] Instance kp_lpend_ep_reset b g e : Keeps lpend (ep_reset b g e).
Proof. intro s. generalize (eq_refl (lpend s)). generalize (lpend s) at 2 3. intros R HR. unfold ep_reset. repeat frame1. Qed.
#[export] Instance kp_seqn_ep_reset b g e : Keeps seqn (ep_reset b g e).
Proof. intro s. generalize (eq_refl (seqn s)). generalize (seqn s) at 2 3. intros R HR. unfold ep_reset. repeat frame1. Qed.
#[export] Instance kp_qdata_ep_reset b g e : Keeps qdata (ep_reset b g e).
Proof. intro s. generalize (eq_refl (qdata s)). generalize (qdata s) at 2 3. intros R HR. unfold ep_reset. repeat frame1. Qed.
#[export] Instance kp_qcmd_ep_reset b g e : Keeps qcmd (ep_reset b g e).
Proof. intro s. generalize (eq_refl (qcmd s)). generalize (qcmd s) at 2 3. intros R HR. unfold ep_reset. repeat frame1. Qed.
#[export] Instance kp_nextc_ep_reset b g e : Keeps nextc (ep_reset b g e).
Proof. intro s. generalize (eq_refl (nextc s)). generalize (nextc s) at 2 3. intros R HR. unfold ep_reset. repeat frame1. Qed.
#[export] Instance kp_nexte_ep_reset b g e : Keeps nexte (ep_reset b g e).
Proof. intro s. generalize (eq_refl (nexte s)). generalize (nexte s) at 2 3. intros R HR. unfold ep_reset. repeat frame1. Qed.
#[export] Instance kp_orc_ep_reset b g e : Keeps orc (ep_reset b g e).
Proof. intro s. generalize (eq_refl (orc s)). generalize (orc s) at 2 3. intros R HR. unfold ep_reset. repeat frame1. Qed.
#[export] Instance kp_salts_ep_reset b g e : Keeps salts (ep_reset b g e).
Proof. intro s. generalize (eq_refl (salts s)). generalize (salts s) at 2 3. intros R HR. unfold ep_reset. repeat frame1. Qed.

#[export] Instance kp_cf_conn_reset c : Keeps cf (conn_reset c).
Proof. intro s. generalize (eq_refl (cf s)). generalize (cf s) at 2 3. intros R HR. unfold conn_reset. repeat frame1. Qed.
#[export] Instance kp_self_conn_reset c : Keeps self (conn_reset c).
Proof. intro s. generalize (eq_refl (self s)). generalize (self s) at 2 3. intros R HR. unfold conn_reset. repeat frame1. Qed.
#[export] Instance kp_parent_conn_reset c : Keeps parent (conn_reset c).
Proof. intro s. generalize (eq_refl (parent s)). generalize (parent s) at 2 3. intros R HR. unfold conn_reset. repeat frame1. Qed.
#[export] Instance kp_routes_conn_reset c : Keeps routes (conn_reset c).
Proof. intro s. generalize (eq_refl (routes s)). generalize (routes s) at 2 3. intros R HR. unfold conn_reset. repeat frame1. Qed.
#[export] Instance kp_fl_reset_conn_reset c : Keeps fl_reset (conn_reset c).
Proof. intro s. generalize (eq_refl (fl_reset s)). generalize (fl_reset s) at 2 3. intros R HR. unfold conn_reset. repeat frame1. Qed.
#[export] Instance kp_fl_gcreset_conn_reset c : Keeps fl_gcreset (conn_reset c).
Proof. intro s. generalize (eq_refl (fl_gcreset s)). generalize (fl_gcreset s) at 2 3. intros R HR. unfold conn_reset. repeat frame1. Qed.
#[export] Instance kp_fl_act_conn_reset c : Keeps fl_act (conn_reset c).
Proof. intro s. generalize (eq_refl (fl_act s)). generalize (fl_act s) at 2 3. intros R HR. unfold conn_reset. repeat frame1. Qed.
#[export] Instance kp_fl_preg_conn_reset c : Keeps fl_preg (conn_reset c).
Proof. intro s. generalize (eq_refl (fl_preg s)). generalize (fl_preg s) at 2 3. intros R HR. unfold conn_reset. repeat frame1. Qed.
#[export] Instance kp_fl_self_conn_reset c : Keeps fl_self (conn_reset c).
Proof. intro s. generalize (eq_refl (fl_self s)). generalize (fl_self s) at 2 3. intros R HR. unfold conn_reset. repeat frame1. Qed.
#[export] Instance kp_fl_gce_conn_reset c : Keeps fl_gce (conn_reset c).
Proof. intro s. generalize (eq_refl (fl_gce s)). generalize (fl_gce s) at 2 3. intros R HR. unfold conn_reset. repeat frame1. Qed.
#[export] Instance kp_fl_gcc_conn_reset c : Keeps fl_gcc (conn_reset c).
Proof. intro s. generalize (eq_refl (fl_gcc s)). generalize (fl_gcc s) at 2 3. intros R HR. unfold conn_reset. repeat frame1. Qed.
#[export] Instance kp_sec_conn_reset c : Keeps sec (conn_reset c).
Proof. intro s. generalize (eq_refl (sec s)). generalize (sec s) at 2 3. intros R HR. unfold conn_reset. repeat frame1. Qed.
#[export] Instance kp_pend_conn_reset c : Keeps pend (conn_reset c).
Proof. intro s. generalize (eq_refl (pend s)). generalize (pend s) at 2 3. intros R HR. unfold conn_reset. repeat frame1. Qed.
#[export] Instance kp_lpend_conn_reset c : Keeps lpend (conn_reset c).
Proof. intro s. generalize (eq_refl (lpend s)). generalize (lpend s) at 2 3. intros R HR. unfold conn_reset. repeat frame1. Qed.
#[export] Instance kp_seqn_conn_reset c : Keeps seqn (conn_reset c).
Proof. intro s. generalize (eq_refl (seqn s)). generalize (seqn s) at 2 3. intros R HR. unfold conn_reset. repeat frame1. Qed.
#[export] Instance kp_qdata_conn_reset c : Keeps qdata (conn_reset c).
Proof. intro s. generalize (eq_refl (qdata s)). generalize (qdata s) at 2 3. intros R HR. unfold conn_reset. repeat frame1. Qed.
#[export] Instance kp_qcmd_conn_reset c : Keeps qcmd (conn_reset c).
Proof. intro s. generalize (eq_refl (qcmd s)). generalize (qcmd s) at 2 3. intros R HR. unfold conn_reset. repeat frame1. Qed.
#[export] Instance kp_nextc_conn_reset c : Keeps nextc (conn_reset c).
Proof. intro s. generalize (eq_refl (nextc s)). generalize (nextc s) at 2 3. intros R HR. unfold conn_reset. repeat frame1. Qed.
#[export] Instance kp_nexte_conn_reset c : Keeps nexte (conn_reset c).
Proof. intro s. generalize (eq_refl (nexte s)). generalize (nexte s) at 2 3. intros R HR. unfold conn_reset. repeat frame1. Qed.
#[export] Instance kp_orc_conn_reset c : Keeps orc (conn_reset c).
Proof. intro s. generalize (eq_refl (orc s)). generalize (orc s) at 2 3. intros R HR. unfold conn_reset. repeat frame1. Qed.
#[export] Instance kp_salts_conn_reset c : Keeps salts (conn_reset c).
Proof. intro s. generalize (eq_refl (salts s)). generalize (salts s) at 2 3. intros R HR. unfold conn_reset. repeat frame1. Qed.

#[export] Instance kp_cf_ep_drop e : Keeps cf (ep_drop e).
Proof. intro s. generalize (eq_refl (cf s)). generalize (cf s) at 2 3. intros R HR. unfold ep_drop. repeat frame1. Qed.
#[export] Instance kp_self_ep_drop e : Keeps self (ep_drop e).
Proof. intro s. generalize (eq_refl (self s)). generalize (self s) at 2 3. intros R HR. unfold ep_drop. repeat frame1. Qed.
#[export] Instance kp_parent_ep_drop e : Keeps parent (ep_drop e).
Proof. intro s. generalize (eq_refl (parent s)). generalize (parent s) at 2 3. intros R HR. unfold ep_drop. repeat frame1. Qed.
#[export] Instance kp_routes_ep_drop e : Keeps routes (ep_drop e).
Proof. intro s. generalize (eq_refl (routes s)). generalize (routes s) at 2 3. intros R HR. unfold ep_drop. repeat frame1. Qed.
#[export] Instance kp_fl_reset_ep_drop e : Keeps fl_reset (ep_drop e).
Proof. intro s. generalize (eq_refl (fl_reset s)). generalize (fl_reset s) at 2 3. intros R HR. unfold ep_drop. repeat frame1. Qed.
#[export] Instance kp_fl_gcreset_ep_drop e : Keeps fl_gcreset (ep_drop e).
Proof. intro s. generalize (eq_refl (fl_gcreset s)). generalize (fl_gcreset s) at 2 3. intros R HR. unfold ep_drop. repeat frame1. Qed.
#[export] Instance kp_fl_act_ep_drop e : Keeps fl_act (ep_drop e).
Proof. intro s. generalize (eq_refl (fl_act s)). generalize (fl_act s) at 2 3. intros R HR. unfold ep_drop. repeat frame1. Qed.
#[export] Instance kp_fl_preg_ep_drop e : Keeps fl_preg (ep_drop e).
Proof. intro s. generalize (eq_refl (fl_preg s)). generalize (fl_preg s) at 2 3. intros R HR. unfold ep_drop. repeat frame1. Qed.
#[export] Instance kp_fl_self_ep_drop e : Keeps fl_self (ep_drop e).
Proof. intro s. generalize (eq_refl (fl_self s)). generalize (fl_self s) at 2 3. intros R HR. unfold ep_drop. repeat frame1. Qed.
#[export] Instance kp_fl_gce_ep_drop e : Keeps fl_gce (ep_drop e).
Proof. intro s. generalize (eq_refl (fl_gce s)). generalize (fl_gce s) at 2 3. intros R HR. unfold ep_drop. repeat frame1. Qed.
#[export] Instance kp_fl_gcc_ep_drop e : Keeps fl_gcc (ep_drop e).
Proof. intro s. generalize (eq_refl (fl_gcc s)). generalize (fl_gcc s) at 2 3. intros R HR. unfold ep_drop. repeat frame1. Qed.
#[export] Instance kp_sec_ep_drop e : Keeps sec (ep_drop e).
Proof. intro s. generalize (eq_refl (sec s)). generalize (sec s) at 2 3. intros R HR. unfold ep_drop. repeat frame1. Qed.
#[export] Instance kp_pend_ep_drop e : Keeps pend (ep_drop e).
Proof. intro s. generalize (eq_refl (pend s)). generalize (pend s) at 2 3. intros R HR. unfold ep_drop. repeat frame1. Qed.
#[export] Instance kp_lpend_ep_drop e : Keeps lpend (ep_drop e).
Proof. intro s. generalize (eq_refl (lpend s)). generalize (lpend s) at 2 3. intros R HR. unfold ep_drop. repeat frame1. Qed.
#[export] Instance kp_seqn_ep_drop e : Keeps seqn (ep_drop e).
Proof. intro s. generalize (eq_refl (seqn s)). generalize (seqn s) at 2 3. intros R HR. unfold ep_drop. repeat frame1. Qed.
#[export] Instance kp_qdata_ep_drop e : Keeps qdata (ep_drop e).
Proof. intro s. generalize (eq_refl (qdata s)). generalize (qdata s) at 2 3. intros R HR. unfold ep_drop. repeat frame1. Qed.
#[export] Instance kp_qcmd_ep_drop e : Keeps qcmd (ep_drop e).
Proof. intro s. generalize (eq_refl (qcmd s)). generalize (qcmd s) at 2 3. intros R HR. unfold ep_drop. repeat frame1. Qed.
#[export] Instance kp_nextc_ep_drop e : Keeps nextc (ep_drop e).
Proof. intro s. generalize (eq_refl (nextc s)). generalize (nextc s) at 2 3. intros R HR. unfold ep_drop. repeat frame1. Qed.
#[export] Instance kp_nexte_ep_drop e : Keeps nexte (ep_drop e).
Proof. intro s. generalize (eq_refl (nexte s)). generalize (nexte s) at 2 3. intros R HR. unfold ep_drop. repeat frame1. Qed.
#[export] Instance kp_orc_ep_drop e : Keeps orc (ep_drop e).
Proof. intro s. generalize (eq_refl (orc s)). generalize (orc s) at 2 3. intros R HR. unfold ep_drop. repeat frame1. Qed.
#[export] Instance kp_salts_ep_drop e : Keeps salts (ep_drop e).
Proof. intro s. generalize (eq_refl (salts s)). generalize (salts s) at 2 3. intros R HR. unfold ep_drop. repeat frame1. Qed.

#[export] Instance kp_cf_conn_drop c : Keeps cf (conn_drop c).
Proof. intro s. generalize (eq_refl (cf s)). generalize (cf s) at 2 3. intros R HR. unfold conn_drop. repeat frame1. Qed.
#[export] Instance kp_self_conn_drop c : Keeps self (conn_drop c).
Proof. intro s. generalize (eq_refl (self s)). generalize (self s) at 2 3. intros R HR. unfold conn_drop. repeat frame1. Qed.
#[export] Instance kp_parent_conn_drop c : Keeps parent (conn_drop c).
Proof. intro s. generalize (eq_refl (parent s)). generalize (parent s) at 2 3. intros R HR. unfold conn_drop. repeat frame1. Qed.
#[export] Instance kp_routes_conn_drop c : Keeps routes (conn_drop c).
Proof. intro s. generalize (eq_refl (routes s)). generalize (routes s) at 2 3. intros R HR. unfold conn_drop. repeat frame1. Qed.
#[export] Instance kp_fl_reset_conn_drop c : Keeps fl_reset (conn_drop c).
Proof. intro s. generalize (eq_refl (fl_reset s)). generalize (fl_reset s) at 2 3. intros R HR. unfold conn_drop. repeat frame1. Qed.
#[export] Instance kp_fl_gcreset_conn_drop c : Keeps fl_gcreset (conn_drop c).
Proof. intro s. generalize (eq_refl (fl_gcreset s)). generalize (fl_gcreset s) at 2 3. intros R HR. unfold conn_drop. repeat frame1. Qed.
#[export] Instance kp_fl_act_conn_drop c : Keeps fl_act (conn_drop c).
Proof. intro s. generalize (eq_refl (fl_act s)). generalize (fl_act s) at 2 3. intros R HR. unfold conn_drop. repeat frame1. Qed.
#[export] Instance kp_fl_preg_conn_drop c : Keeps fl_preg (conn_drop c).
Proof. intro s. generalize (eq_refl (fl_preg s)). generalize (fl_preg s) at 2 3. intros R HR. unfold conn_drop. repeat frame1. Qed.
#[export] Instance kp_fl_self_conn_drop c : Keeps fl_self (conn_drop c).
Proof. intro s. generalize (eq_refl (fl_self s)). generalize (fl_self s) at 2 3. intros R HR. unfold conn_drop. repeat frame1. Qed.
#[export] Instance kp_fl_gce_conn_drop c : Keeps fl_gce (conn_drop c).
Proof. intro s. generalize (eq_refl (fl_gce s)). generalize (fl_gce s) at 2 3. intros R HR. unfold conn_drop. repeat frame1. Qed.
#[export] Instance kp_fl_gcc_conn_drop c : Keeps fl_gcc (conn_drop c).
Proof. intro s. generalize (eq_refl (fl_gcc s)). generalize (fl_gcc s) at 2 3. intros R HR. unfold conn_drop. repeat frame1. Qed.
#[export] Instance kp_sec_conn_drop c : Keeps sec (conn_drop c).
Proof. intro s. generalize (eq_refl (sec s)). generalize (sec s) at 2 3. intros R HR. unfold conn_drop. repeat frame1. Qed.
#[export] Instance kp_pend_conn_drop c : Keeps pend (conn_drop c).
Proof. intro s. generalize (eq_refl (pend s)). generalize (pend s) at 2 3. intros R HR. unfold conn_drop. repeat frame1. Qed.
#[export] Instance kp_lpend_conn_drop c : Keeps lpend (conn_drop c).
Proof. intro s. generalize (eq_refl (lpend s)). generalize (lpend s) at 2 3. intros R HR. unfold conn_drop. repeat frame1. Qed.
#[export] Instance kp_seqn_conn_drop c : Keeps seqn (conn_drop c).
Proof. intro s. generalize (eq_refl (seqn s)). generalize (seqn s) at 2 3. intros R HR. unfold conn_drop. repeat frame1. Qed.
#[export] Instance kp_qdata_conn_drop c : Keeps qdata (conn_drop c).
Proof. intro s. generalize (eq_refl (qdata s)). generalize (qdata s) at 2 3. intros R HR. unfold conn_drop. repeat frame1. Qed.
#[export] Instance kp_qcmd_conn_drop c : Keeps qcmd (conn_drop c).
Proof. intro s. generalize (eq_refl (qcmd s)). generalize (qcmd s) at 2 3. intros R HR. unfold conn_drop. repeat frame1. Qed.
#[export] Instance kp_nextc_conn_drop c : Keeps nextc (conn_drop c).
Proof. intro s. generalize (eq_refl (nextc s)). generalize (nextc s) at 2 3. intros R HR. unfold conn_drop. repeat frame1. Qed.
#[export] Instance kp_nexte_conn_drop c : Keeps nexte (conn_drop c).
Proof. intro s. generalize (eq_refl (nexte s)). generalize (nexte s) at 2 3. intros R HR. unfold conn_drop. repeat frame1. Qed.
#[export] Instance kp_orc_conn_drop c : Keeps orc (conn_drop c).
Proof. intro s. generalize (eq_refl (orc s)). generalize (orc s) at 2 3. intros R HR. unfold conn_drop. repeat frame1. Qed.
#[export] Instance kp_salts_conn_drop c : Keeps salts (conn_drop c).
Proof. intro s. generalize (eq_refl (salts s)). generalize (salts s) at 2 3. intros R HR. unfold conn_drop. repeat frame1. Qed.

#[export] Instance kp_cf_conn_create : Keeps2 cf conn_create.
Proof. intro s. generalize (eq_refl (cf s)). generalize (cf s) at 2 3. intros R HR. unfold conn_create. repeat frame1. Qed.
#[export] Instance kp_nst_conn_create : Keeps2 nst conn_create.
Proof. intro s. generalize (eq_refl (nst s)). generalize (nst s) at 2 3. intros R HR. unfold conn_create. repeat frame1. Qed.
#[export] Instance kp_self_conn_create : Keeps2 self conn_create.
Proof. intro s. generalize (eq_refl (self s)). generalize (self s) at 2 3. intros R HR. unfold conn_create. repeat frame1. Qed.
#[export] Instance kp_parent_conn_create : Keeps2 parent conn_create.
Proof. intro s. generalize (eq_refl (parent s)). generalize (parent s) at 2 3. intros R HR. unfold conn_create. repeat frame1. Qed.
#[export] Instance kp_routes_conn_create : Keeps2 routes conn_create.
Proof. intro s. generalize (eq_refl (routes s)). generalize (routes s) at 2 3. intros R HR. unfold conn_create. repeat frame1. Qed.
#[export] Instance kp_fl_reset_conn_create : Keeps2 fl_reset conn_create.
Proof. intro s. generalize (eq_refl (fl_reset s)). generalize (fl_reset s) at 2 3. intros R HR. unfold conn_create. repeat frame1. Qed.
#[export] Instance kp_fl_gcreset_conn_create : Keeps2 fl_gcreset conn_create.
Proof. intro s. generalize (eq_refl (fl_gcreset s)). generalize (fl_gcreset s) at 2 3. intros R HR. unfold conn_create. repeat frame1. Qed.
#[export] Instance kp_fl_act_conn_create : Keeps2 fl_act conn_create.
Proof. intro s. generalize (eq_refl (fl_act s)). generalize (fl_act s) at 2 3. intros R HR. unfold conn_create. repeat frame1. Qed.
#[export] Instance kp_fl_preg_conn_create : Keeps2 fl_preg conn_create.
Proof. intro s. generalize (eq_refl (fl_preg s)). generalize (fl_preg s) at 2 3. intros R HR. unfold conn_create. repeat frame1. Qed.
#[export] Instance kp_fl_shut_conn_create : Keeps2 fl_shut conn_create.
Proof. intro s. generalize (eq_refl (fl_shut s)). generalize (fl_shut s) at 2 3. intros R HR. unfold conn_create. repeat frame1. Qed.
#[export] Instance kp_fl_self_conn_create : Keeps2 fl_self conn_create.
Proof. intro s. generalize (eq_refl (fl_self s)). generalize (fl_self s) at 2 3. intros R HR. unfold conn_create. repeat frame1. Qed.
#[export] Instance kp_fl_gce_conn_create : Keeps2 fl_gce conn_create.
Proof. intro s. generalize (eq_refl (fl_gce s)). generalize (fl_gce s) at 2 3. intros R HR. unfold conn_create. repeat frame1. Qed.
#[export] Instance kp_fl_gcc_conn_create : Keeps2 fl_gcc conn_create.
Proof. intro s. generalize (eq_refl (fl_gcc s)). generalize (fl_gcc s) at 2 3. intros R HR. unfold conn_create. repeat frame1. Qed.
#[export] Instance kp_sec_conn_create : Keeps2 sec conn_create.
Proof. intro s. generalize (eq_refl (sec s)). generalize (sec s) at 2 3. intros R HR. unfold conn_create. repeat frame1. Qed.
#[export] Instance kp_popr_conn_create : Keeps2 popr conn_create.
Proof. intro s. generalize (eq_refl (popr s)). generalize (popr s) at 2 3. intros R HR. unfold conn_create. repeat frame1. Qed.
#[export] Instance kp_pings_conn_create : Keeps2 pings conn_create.
Proof. intro s. generalize (eq_refl (pings s)). generalize (pings s) at 2 3. intros R HR. unfold conn_create. repeat frame1. Qed.
#[export] Instance kp_pend_conn_create : Keeps2 pend conn_create.
Proof. intro s. generalize (eq_refl (pend s)). generalize (pend s) at 2 3. intros R HR. unfold conn_create. repeat frame1. Qed.
#[export] Instance kp_lpend_conn_create : Keeps2 lpend conn_create.
Proof. intro s. generalize (eq_refl (lpend s)). generalize (lpend s) at 2 3. intros R HR. unfold conn_create. repeat frame1. Qed.
#[export] Instance kp_gce_conn_create : Keeps2 gce conn_create.
Proof. intro s. generalize (eq_refl (gce s)). generalize (gce s) at 2 3. intros R HR. unfold conn_create. repeat frame1. Qed.
#[export] Instance kp_gcc_conn_create : Keeps2 gcc conn_create.
Proof. intro s. generalize (eq_refl (gcc s)). generalize (gcc s) at 2 3. intros R HR. unfold conn_create. repeat frame1. Qed.
#[export] Instance kp_procs_conn_create : Keeps2 procs conn_create.
Proof. intro s. generalize (eq_refl (procs s)). generalize (procs s) at 2 3. intros R HR. unfold conn_create. repeat frame1. Qed.
#[export] Instance kp_seqn_conn_create : Keeps2 seqn conn_create.
Proof. intro s. generalize (eq_refl (seqn s)). generalize (seqn s) at 2 3. intros R HR. unfold conn_create. repeat frame1. Qed.
#[export] Instance kp_qdata_conn_create : Keeps2 qdata conn_create.
Proof. intro s. generalize (eq_refl (qdata s)). generalize (qdata s) at 2 3. intros R HR. unfold conn_create. repeat frame1. Qed.
#[export] Instance kp_qcmd_conn_create : Keeps2 qcmd conn_create.
Proof. intro s. generalize (eq_refl (qcmd s)). generalize (qcmd s) at 2 3. intros R HR. unfold conn_create. repeat frame1. Qed.
#[export] Instance kp_es_conn_create : Keeps2 es conn_create.
Proof. intro s. generalize (eq_refl (es s)). generalize (es s) at 2 3. intros R HR. unfold conn_create. repeat frame1. Qed.
#[export] Instance kp_nexte_conn_create : Keeps2 nexte conn_create.
Proof. intro s. generalize (eq_refl (nexte s)). generalize (nexte s) at 2 3. intros R HR. unfold conn_create. repeat frame1. Qed.
#[export] Instance kp_orc_conn_create : Keeps2 orc conn_create.
Proof. intro s. generalize (eq_refl (orc s)). generalize (orc s) at 2 3. intros R HR. unfold conn_create. repeat frame1. Qed.
#[export] Instance kp_salts_conn_create : Keeps2 salts conn_create.
Proof. intro s. generalize (eq_refl (salts s)). generalize (salts s) at 2 3. intros R HR. unfold conn_create. repeat frame1. Qed.
#[export] Instance kp_log_conn_create : Keeps2 log conn_create.
Proof. intro s. generalize (eq_refl (log s)). generalize (log s) at 2 3. intros R HR. unfold conn_create. repeat frame1. Qed.

#[export] Instance kp_cf_ep_create i subs p h : Keeps2 cf (ep_create i subs p h).
Proof. intro s. generalize (eq_refl (cf s)). generalize (cf s) at 2 3. intros R HR. unfold ep_create. repeat frame1. Qed.
#[export] Instance kp_nst_ep_create i subs p h : Keeps2 nst (ep_create i subs p h).
Proof. intro s. generalize (eq_refl (nst s)). generalize (nst s) at 2 3. intros R HR. unfold ep_create. repeat frame1. Qed.
#[export] Instance kp_self_ep_create i subs p h : Keeps2 self (ep_create i subs p h).
Proof. intro s. generalize (eq_refl (self s)). generalize (self s) at 2 3. intros R HR. unfold ep_create. repeat frame1. Qed.
#[export] Instance kp_parent_ep_create i subs p h : Keeps2 parent (ep_create i subs p h).
Proof. intro s. generalize (eq_refl (parent s)). generalize (parent s) at 2 3. intros R HR. unfold ep_create. repeat frame1. Qed.
#[export] Instance kp_routes_ep_create i subs p h : Keeps2 routes (ep_create i subs p h).
Proof. intro s. generalize (eq_refl (routes s)). generalize (routes s) at 2 3. intros R HR. unfold ep_create. repeat frame1. Qed.
#[export] Instance kp_fl_reset_ep_create i subs p h : Keeps2 fl_reset (ep_create i subs p h).
Proof. intro s. generalize (eq_refl (fl_reset s)). generalize (fl_reset s) at 2 3. intros R HR. unfold ep_create. repeat frame1. Qed.
#[export] Instance kp_fl_gcreset_ep_create i subs p h : Keeps2 fl_gcreset (ep_create i subs p h).
Proof. intro s. generalize (eq_refl (fl_gcreset s)). generalize (fl_gcreset s) at 2 3. intros R HR. unfold ep_create. repeat frame1. Qed.
#[export] Instance kp_fl_act_ep_create i subs p h : Keeps2 fl_act (ep_create i subs p h).
Proof. intro s. generalize (eq_refl (fl_act s)). generalize (fl_act s) at 2 3. intros R HR. unfold ep_create. repeat frame1. Qed.
#[export] Instance kp_fl_preg_ep_create i subs p h : Keeps2 fl_preg (ep_create i subs p h).
Proof. intro s. generalize (eq_refl (fl_preg s)). generalize (fl_preg s) at 2 3. intros R HR. unfold ep_create. repeat frame1. Qed.
#[export] Instance kp_fl_shut_ep_create i subs p h : Keeps2 fl_shut (ep_create i subs p h).
Proof. intro s. generalize (eq_refl (fl_shut s)). generalize (fl_shut s) at 2 3. intros R HR. unfold ep_create. repeat frame1. Qed.
#[export] Instance kp_fl_self_ep_create i subs p h : Keeps2 fl_self (ep_create i subs p h).
Proof. intro s. generalize (eq_refl (fl_self s)). generalize (fl_self s) at 2 3. intros R HR. unfold ep_create. repeat frame1. Qed.
#[export] Instance kp_fl_gce_ep_create i subs p h : Keeps2 fl_gce (ep_create i subs p h).
Proof. intro s. generalize (eq_refl (fl_gce s)). generalize (fl_gce s) at 2 3. intros R HR. unfold ep_create. repeat frame1. Qed.
#[export] Instance kp_fl_gcc_ep_create i subs p h : Keeps2 fl_gcc (ep_create i subs p h).
Proof. intro s. generalize (eq_refl (fl_gcc s)). generalize (fl_gcc s) at 2 3. intros R HR. unfold ep_create. repeat frame1. Qed.
#[export] Instance kp_sec_ep_create i subs p h : Keeps2 sec (ep_create i subs p h).
Proof. intro s. generalize (eq_refl (sec s)). generalize (sec s) at 2 3. intros R HR. unfold ep_create. repeat frame1. Qed.
#[export] Instance kp_popr_ep_create i subs p h : Keeps2 popr (ep_create i subs p h).
Proof. intro s. generalize (eq_refl (popr s)). generalize (popr s) at 2 3. intros R HR. unfold ep_create. repeat frame1. Qed.
#[export] Instance kp_connecting_ep_create i subs p h : Keeps2 connecting (ep_create i subs p h).
Proof. intro s. generalize (eq_refl (connecting s)). generalize (connecting s) at 2 3. intros R HR. unfold ep_create. repeat frame1. Qed.
#[export] Instance kp_pend_ep_create i subs p h : Keeps2 pend (ep_create i subs p h).
Proof. intro s. generalize (eq_refl (pend s)). generalize (pend s) at 2 3. intros R HR. unfold ep_create. repeat frame1. Qed.
#[export] Instance kp_lpend_ep_create i subs p h : Keeps2 lpend (ep_create i subs p h).
Proof. intro s. generalize (eq_refl (lpend s)). generalize (lpend s) at 2 3. intros R HR. unfold ep_create. repeat frame1. Qed.
#[export] Instance kp_gce_ep_create i subs p h : Keeps2 gce (ep_create i subs p h).
Proof. intro s. generalize (eq_refl (gce s)). generalize (gce s) at 2 3. intros R HR. unfold ep_create. repeat frame1. Qed.
#[export] Instance kp_gcc_ep_create i subs p h : Keeps2 gcc (ep_create i subs p h).
Proof. intro s. generalize (eq_refl (gcc s)). generalize (gcc s) at 2 3. intros R HR. unfold ep_create. repeat frame1. Qed.
#[export] Instance kp_procs_ep_create i subs p h : Keeps2 procs (ep_create i subs p h).
Proof. intro s. generalize (eq_refl (procs s)). generalize (procs s) at 2 3. intros R HR. unfold ep_create. repeat frame1. Qed.
#[export] Instance kp_seqn_ep_create i subs p h : Keeps2 seqn (ep_create i subs p h).
Proof. intro s. generalize (eq_refl (seqn s)). generalize (seqn s) at 2 3. intros R HR. unfold ep_create. repeat frame1. Qed.
#[export] Instance kp_qdata_ep_create i subs p h : Keeps2 qdata (ep_create i subs p h).
Proof. intro s. generalize (eq_refl (qdata s)). generalize (qdata s) at 2 3. intros R HR. unfold ep_create. repeat frame1. Qed.
#[export] Instance kp_qcmd_ep_create i subs p h : Keeps2 qcmd (ep_create i subs p h).
Proof. intro s. generalize (eq_refl (qcmd s)). generalize (qcmd s) at 2 3. intros R HR. unfold ep_create. repeat frame1. Qed.
#[export] Instance kp_cs_ep_create i subs p h : Keeps2 cs (ep_create i subs p h).
Proof. intro s. generalize (eq_refl (cs s)). generalize (cs s) at 2 3. intros R HR. unfold ep_create. repeat frame1. Qed.
#[export] Instance kp_nextc_ep_create i subs p h : Keeps2 nextc (ep_create i subs p h).
Proof. intro s. generalize (eq_refl (nextc s)). generalize (nextc s) at 2 3. intros R HR. unfold ep_create. repeat frame1. Qed.
#[export] Instance kp_orc_ep_create i subs p h : Keeps2 orc (ep_create i subs p h).
Proof. intro s. generalize (eq_refl (orc s)). generalize (orc s) at 2 3. intros R HR. unfold ep_create. repeat frame1. Qed.
#[export] Instance kp_salts_ep_create i subs p h : Keeps2 salts (ep_create i subs p h).
Proof. intro s. generalize (eq_refl (salts s)). generalize (salts s) at 2 3. intros R HR. unfold ep_create. repeat frame1. Qed.
#[export] Instance kp_log_ep_create i subs p h : Keeps2 log (ep_create i subs p h).
Proof. intro s. generalize (eq_refl (log s)). generalize (log s) at 2 3. intros R HR. unfold ep_create. repeat frame1. Qed.

#[export] Instance kp_cf_add_connection e c b : Keeps2 cf (add_connection e c b).
Proof. intro s. generalize (eq_refl (cf s)). generalize (cf s) at 2 3. intros R HR. unfold add_connection. repeat frame1. Qed.
#[export] Instance kp_nst_add_connection e c b : Keeps2 nst (add_connection e c b).
Proof. intro s. generalize (eq_refl (nst s)). generalize (nst s) at 2 3. intros R HR. unfold add_connection. repeat frame1. Qed.
#[export] Instance kp_self_add_connection e c b : Keeps2 self (add_connection e c b).
Proof. intro s. generalize (eq_refl (self s)). generalize (self s) at 2 3. intros R HR. unfold add_connection. repeat frame1. Qed.
#[export] Instance kp_parent_add_connection e c b : Keeps2 parent (add_connection e c b).
Proof. intro s. generalize (eq_refl (parent s)). generalize (parent s) at 2 3. intros R HR. unfold add_connection. repeat frame1. Qed.
#[export] Instance kp_routes_add_connection e c b : Keeps2 routes (add_connection e c b).
Proof. intro s. generalize (eq_refl (routes s)). generalize (routes s) at 2 3. intros R HR. unfold add_connection. repeat frame1. Qed.
#[export] Instance kp_fl_reset_add_connection e c b : Keeps2 fl_reset (add_connection e c b).
Proof. intro s. generalize (eq_refl (fl_reset s)). generalize (fl_reset s) at 2 3. intros R HR. unfold add_connection. repeat frame1. Qed.
#[export] Instance kp_fl_gcreset_add_connection e c b : Keeps2 fl_gcreset (add_connection e c b).
Proof. intro s. generalize (eq_refl (fl_gcreset s)). generalize (fl_gcreset s) at 2 3. intros R HR. unfold add_connection. repeat frame1. Qed.
#[export] Instance kp_fl_act_add_connection e c b : Keeps2 fl_act (add_connection e c b).
Proof. intro s. generalize (eq_refl (fl_act s)). generalize (fl_act s) at 2 3. intros R HR. unfold add_connection. repeat frame1. Qed.
#[export] Instance kp_fl_preg_add_connection e c b : Keeps2 fl_preg (add_connection e c b).
Proof. intro s. generalize (eq_refl (fl_preg s)). generalize (fl_preg s) at 2 3. intros R HR. unfold add_connection. repeat frame1. Qed.
#[export] Instance kp_fl_shut_add_connection e c b : Keeps2 fl_shut (add_connection e c b).
Proof. intro s. generalize (eq_refl (fl_shut s)). generalize (fl_shut s) at 2 3. intros R HR. unfold add_connection. repeat frame1. Qed.
#[export] Instance kp_fl_self_add_connection e c b : Keeps2 fl_self (add_connection e c b).
Proof. intro s. generalize (eq_refl (fl_self s)). generalize (fl_self s) at 2 3. intros R HR. unfold add_connection. repeat frame1. Qed.
#[export] Instance kp_fl_gce_add_connection e c b : Keeps2 fl_gce (add_connection e c b).
Proof. intro s. generalize (eq_refl (fl_gce s)). generalize (fl_gce s) at 2 3. intros R HR. unfold add_connection. repeat frame1. Qed.
#[export] Instance kp_fl_gcc_add_connection e c b : Keeps2 fl_gcc (add_connection e c b).
Proof. intro s. generalize (eq_refl (fl_gcc s)). generalize (fl_gcc s) at 2 3. intros R HR. unfold add_connection. repeat frame1. Qed.
#[export] Instance kp_sec_add_connection e c b : Keeps2 sec (add_connection e c b).
Proof. intro s. generalize (eq_refl (sec s)). generalize (sec s) at 2 3. intros R HR. unfold add_connection. repeat frame1. Qed.
#[export] Instance kp_popr_add_connection e c b : Keeps2 popr (add_connection e c b).
Proof. intro s. generalize (eq_refl (popr s)). generalize (popr s) at 2 3. intros R HR. unfold add_connection. repeat frame1. Qed.
#[export] Instance kp_pings_add_connection e c b : Keeps2 pings (add_connection e c b).
Proof. intro s. generalize (eq_refl (pings s)). generalize (pings s) at 2 3. intros R HR. unfold add_connection. repeat frame1. Qed.
#[export] Instance kp_pend_add_connection e c b : Keeps2 pend (add_connection e c b).
Proof. intro s. generalize (eq_refl (pend s)). generalize (pend s) at 2 3. intros R HR. unfold add_connection. repeat frame1. Qed.
#[export] Instance kp_lpend_add_connection e c b : Keeps2 lpend (add_connection e c b).
Proof. intro s. generalize (eq_refl (lpend s)). generalize (lpend s) at 2 3. intros R HR. unfold add_connection. repeat frame1. Qed.
#[export] Instance kp_gce_add_connection e c b : Keeps2 gce (add_connection e c b).
Proof. intro s. generalize (eq_refl (gce s)). generalize (gce s) at 2 3. intros R HR. unfold add_connection. repeat frame1. Qed.
#[export] Instance kp_gcc_add_connection e c b : Keeps2 gcc (add_connection e c b).
Proof. intro s. generalize (eq_refl (gcc s)). generalize (gcc s) at 2 3. intros R HR. unfold add_connection. repeat frame1. Qed.
#[export] Instance kp_procs_add_connection e c b : Keeps2 procs (add_connection e c b).
Proof. intro s. generalize (eq_refl (procs s)). generalize (procs s) at 2 3. intros R HR. unfold add_connection. repeat frame1. Qed.
#[export] Instance kp_seqn_add_connection e c b : Keeps2 seqn (add_connection e c b).
Proof. intro s. generalize (eq_refl (seqn s)). generalize (seqn s) at 2 3. intros R HR. unfold add_connection. repeat frame1. Qed.
#[export] Instance kp_qdata_add_connection e c b : Keeps2 qdata (add_connection e c b).
Proof. intro s. generalize (eq_refl (qdata s)). generalize (qdata s) at 2 3. intros R HR. unfold add_connection. repeat frame1. Qed.
#[export] Instance kp_qcmd_add_connection e c b : Keeps2 qcmd (add_connection e c b).
Proof. intro s. generalize (eq_refl (qcmd s)). generalize (qcmd s) at 2 3. intros R HR. unfold add_connection. repeat frame1. Qed.
#[export] Instance kp_nextc_add_connection e c b : Keeps2 nextc (add_connection e c b).
Proof. intro s. generalize (eq_refl (nextc s)). generalize (nextc s) at 2 3. intros R HR. unfold add_connection. repeat frame1. Qed.
#[export] Instance kp_nexte_add_connection e c b : Keeps2 nexte (add_connection e c b).
Proof. intro s. generalize (eq_refl (nexte s)). generalize (nexte s) at 2 3. intros R HR. unfold add_connection. repeat frame1. Qed.
#[export] Instance kp_orc_add_connection e c b : Keeps2 orc (add_connection e c b).
Proof. intro s. generalize (eq_refl (orc s)). generalize (orc s) at 2 3. intros R HR. unfold add_connection. repeat frame1. Qed.
#[export] Instance kp_salts_add_connection e c b : Keeps2 salts (add_connection e c b).
Proof. intro s. generalize (eq_refl (salts s)). generalize (salts s) at 2 3. intros R HR. unfold add_connection. repeat frame1. Qed.

#[export] Instance kp_cf_add_listen e a : Keeps cf (add_listen e a).
Proof. intro s. generalize (eq_refl (cf s)). generalize (cf s) at 2 3. intros R HR. unfold add_listen. repeat frame1. Qed.
#[export] Instance kp_nst_add_listen e a : Keeps nst (add_listen e a).
Proof. intro s. generalize (eq_refl (nst s)). generalize (nst s) at 2 3. intros R HR. unfold add_listen. repeat frame1. Qed.
#[export] Instance kp_self_add_listen e a : Keeps self (add_listen e a).
Proof. intro s. generalize (eq_refl (self s)). generalize (self s) at 2 3. intros R HR. unfold add_listen. repeat frame1. Qed.
#[export] Instance kp_parent_add_listen e a : Keeps parent (add_listen e a).
Proof. intro s. generalize (eq_refl (parent s)). generalize (parent s) at 2 3. intros R HR. unfold add_listen. repeat frame1. Qed.
#[export] Instance kp_routes_add_listen e a : Keeps routes (add_listen e a).
Proof. intro s. generalize (eq_refl (routes s)). generalize (routes s) at 2 3. intros R HR. unfold add_listen. repeat frame1. Qed.
#[export] Instance kp_fl_reset_add_listen e a : Keeps fl_reset (add_listen e a).
Proof. intro s. generalize (eq_refl (fl_reset s)). generalize (fl_reset s) at 2 3. intros R HR. unfold add_listen. repeat frame1. Qed.
#[export] Instance kp_fl_gcreset_add_listen e a : Keeps fl_gcreset (add_listen e a).
Proof. intro s. generalize (eq_refl (fl_gcreset s)). generalize (fl_gcreset s) at 2 3. intros R HR. unfold add_listen. repeat frame1. Qed.
#[export] Instance kp_fl_act_add_listen e a : Keeps fl_act (add_listen e a).
Proof. intro s. generalize (eq_refl (fl_act s)). generalize (fl_act s) at 2 3. intros R HR. unfold add_listen. repeat frame1. Qed.
#[export] Instance kp_fl_preg_add_listen e a : Keeps fl_preg (add_listen e a).
Proof. intro s. generalize (eq_refl (fl_preg s)). generalize (fl_preg s) at 2 3. intros R HR. unfold add_listen. repeat frame1. Qed.
#[export] Instance kp_fl_shut_add_listen e a : Keeps fl_shut (add_listen e a).
Proof. intro s. generalize (eq_refl (fl_shut s)). generalize (fl_shut s) at 2 3. intros R HR. unfold add_listen. repeat frame1. Qed.
#[export] Instance kp_fl_self_add_listen e a : Keeps fl_self (add_listen e a).
Proof. intro s. generalize (eq_refl (fl_self s)). generalize (fl_self s) at 2 3. intros R HR. unfold add_listen. repeat frame1. Qed.
#[export] Instance kp_fl_gce_add_listen e a : Keeps fl_gce (add_listen e a).
Proof. intro s. generalize (eq_refl (fl_gce s)). generalize (fl_gce s) at 2 3. intros R HR. unfold add_listen. repeat frame1. Qed.
#[export] Instance kp_fl_gcc_add_listen e a : Keeps fl_gcc (add_listen e a).
Proof. intro s. generalize (eq_refl (fl_gcc s)). generalize (fl_gcc s) at 2 3. intros R HR. unfold add_listen. repeat frame1. Qed.
#[export] Instance kp_sec_add_listen e a : Keeps sec (add_listen e a).
Proof. intro s. generalize (eq_refl (sec s)). generalize (sec s) at 2 3. intros R HR. unfold add_listen. repeat frame1. Qed.
#[export] Instance kp_popr_add_listen e a : Keeps popr (add_listen e a).
Proof. intro s. generalize (eq_refl (popr s)). generalize (popr s) at 2 3. intros R HR. unfold add_listen. repeat frame1. Qed.
#[export] Instance kp_connecting_add_listen e a : Keeps connecting (add_listen e a).
Proof. intro s. generalize (eq_refl (connecting s)). generalize (connecting s) at 2 3. intros R HR. unfold add_listen. repeat frame1. Qed.
#[export] Instance kp_pings_add_listen e a : Keeps pings (add_listen e a).
Proof. intro s. generalize (eq_refl (pings s)). generalize (pings s) at 2 3. intros R HR. unfold add_listen. repeat frame1. Qed.
#[export] Instance kp_pend_add_listen e a : Keeps pend (add_listen e a).
Proof. intro s. generalize (eq_refl (pend s)). generalize (pend s) at 2 3. intros R HR. unfold add_listen. repeat frame1. Qed.
#[export] Instance kp_lpend_add_listen e a : Keeps lpend (add_listen e a).
Proof. intro s. generalize (eq_refl (lpend s)). generalize (lpend s) at 2 3. intros R HR. unfold add_listen. repeat frame1. Qed.
#[export] Instance kp_gce_add_listen e a : Keeps gce (add_listen e a).
Proof. intro s. generalize (eq_refl (gce s)). generalize (gce s) at 2 3. intros R HR. unfold add_listen. repeat frame1. Qed.
#[export] Instance kp_gcc_add_listen e a : Keeps gcc (add_listen e a).
Proof. intro s. generalize (eq_refl (gcc s)). generalize (gcc s) at 2 3. intros R HR. unfold add_listen. repeat frame1. Qed.
#[export] Instance kp_procs_add_listen e a : Keeps procs (add_listen e a).
Proof. intro s. generalize (eq_refl (procs s)). generalize (procs s) at 2 3. intros R HR. unfold add_listen. repeat frame1. Qed.
#[export] Instance kp_seqn_add_listen e a : Keeps seqn (add_listen e a).
Proof. intro s. generalize (eq_refl (seqn s)). generalize (seqn s) at 2 3. intros R HR. unfold add_listen. repeat frame1. Qed.
#[export] Instance kp_qdata_add_listen e a : Keeps qdata (add_listen e a).
Proof. intro s. generalize (eq_refl (qdata s)). generalize (qdata s) at 2 3. intros R HR. unfold add_listen. repeat frame1. Qed.
#[export] Instance kp_qcmd_add_listen e a : Keeps qcmd (add_listen e a).
Proof. intro s. generalize (eq_refl (qcmd s)). generalize (qcmd s) at 2 3. intros R HR. unfold add_listen. repeat frame1. Qed.
#[export] Instance kp_cs_add_listen e a : Keeps cs (add_listen e a).
Proof. intro s. generalize (eq_refl (cs s)). generalize (cs s) at 2 3. intros R HR. unfold add_listen. repeat frame1. Qed.
#[export] Instance kp_nextc_add_listen e a : Keeps nextc (add_listen e a).
Proof. intro s. generalize (eq_refl (nextc s)). generalize (nextc s) at 2 3. intros R HR. unfold add_listen. repeat frame1. Qed.
#[export] Instance kp_nexte_add_listen e a : Keeps nexte (add_listen e a).
Proof. intro s. generalize (eq_refl (nexte s)). generalize (nexte s) at 2 3. intros R HR. unfold add_listen. repeat frame1. Qed.
#[export] Instance kp_orc_add_listen e a : Keeps orc (add_listen e a).
Proof. intro s. generalize (eq_refl (orc s)). generalize (orc s) at 2 3. intros R HR. unfold add_listen. repeat frame1. Qed.
#[export] Instance kp_salts_add_listen e a : Keeps salts (add_listen e a).
Proof. intro s. generalize (eq_refl (salts s)). generalize (salts s) at 2 3. intros R HR. unfold add_listen. repeat frame1. Qed.
#[export] Instance kp_log_add_listen e a : Keeps log (add_listen e a).
Proof. intro s. generalize (eq_refl (log s)). generalize (log s) at 2 3. intros R HR. unfold add_listen. repeat frame1. Qed.

#[export] Instance kp_cf_created e : Keeps2 cf (created e).
Proof. intro s. generalize (eq_refl (cf s)). generalize (cf s) at 2 3. intros R HR. unfold created. repeat frame1. Qed.
#[export] Instance kp_nst_created e : Keeps2 nst (created e).
Proof. intro s. generalize (eq_refl (nst s)). generalize (nst s) at 2 3. intros R HR. unfold created. repeat frame1. Qed.
#[export] Instance kp_self_created e : Keeps2 self (created e).
Proof. intro s. generalize (eq_refl (self s)). generalize (self s) at 2 3. intros R HR. unfold created. repeat frame1. Qed.
#[export] Instance kp_parent_created e : Keeps2 parent (created e).
Proof. intro s. generalize (eq_refl (parent s)). generalize (parent s) at 2 3. intros R HR. unfold created. repeat frame1. Qed.
#[export] Instance kp_routes_created e : Keeps2 routes (created e).
Proof. intro s. generalize (eq_refl (routes s)). generalize (routes s) at 2 3. intros R HR. unfold created. repeat frame1. Qed.
#[export] Instance kp_fl_reset_created e : Keeps2 fl_reset (created e).
Proof. intro s. generalize (eq_refl (fl_reset s)). generalize (fl_reset s) at 2 3. intros R HR. unfold created. repeat frame1. Qed.
#[export] Instance kp_fl_gcreset_created e : Keeps2 fl_gcreset (created e).
Proof. intro s. generalize (eq_refl (fl_gcreset s)). generalize (fl_gcreset s) at 2 3. intros R HR. unfold created. repeat frame1. Qed.
#[export] Instance kp_fl_act_created e : Keeps2 fl_act (created e).
Proof. intro s. generalize (eq_refl (fl_act s)). generalize (fl_act s) at 2 3. intros R HR. unfold created. repeat frame1. Qed.
#[export] Instance kp_fl_preg_created e : Keeps2 fl_preg (created e).
Proof. intro s. generalize (eq_refl (fl_preg s)). generalize (fl_preg s) at 2 3. intros R HR. unfold created. repeat frame1. Qed.
#[export] Instance kp_fl_shut_created e : Keeps2 fl_shut (created e).
Proof. intro s. generalize (eq_refl (fl_shut s)). generalize (fl_shut s) at 2 3. intros R HR. unfold created. repeat frame1. Qed.
#[export] Instance kp_fl_self_created e : Keeps2 fl_self (created e).
Proof. intro s. generalize (eq_refl (fl_self s)). generalize (fl_self s) at 2 3. intros R HR. unfold created. repeat frame1. Qed.
#[export] Instance kp_fl_gce_created e : Keeps2 fl_gce (created e).
Proof. intro s. generalize (eq_refl (fl_gce s)). generalize (fl_gce s) at 2 3. intros R HR. unfold created. repeat frame1. Qed.
#[export] Instance kp_fl_gcc_created e : Keeps2 fl_gcc (created e).
Proof. intro s. generalize (eq_refl (fl_gcc s)). generalize (fl_gcc s) at 2 3. intros R HR. unfold created. repeat frame1. Qed.
#[export] Instance kp_sec_created e : Keeps2 sec (created e).
Proof. intro s. generalize (eq_refl (sec s)). generalize (sec s) at 2 3. intros R HR. unfold created. repeat frame1. Qed.
#[export] Instance kp_popr_created e : Keeps2 popr (created e).
Proof. intro s. generalize (eq_refl (popr s)). generalize (popr s) at 2 3. intros R HR. unfold created. repeat frame1. Qed.
#[export] Instance kp_connecting_created e : Keeps2 connecting (created e).
Proof. intro s. generalize (eq_refl (connecting s)). generalize (connecting s) at 2 3. intros R HR. unfold created. repeat frame1. Qed.
#[export] Instance kp_pings_created e : Keeps2 pings (created e).
Proof. intro s. generalize (eq_refl (pings s)). generalize (pings s) at 2 3. intros R HR. unfold created. repeat frame1. Qed.
#[export] Instance kp_pend_created e : Keeps2 pend (created e).
Proof. intro s. generalize (eq_refl (pend s)). generalize (pend s) at 2 3. intros R HR. unfold created. repeat frame1. Qed.
#[export] Instance kp_lpend_created e : Keeps2 lpend (created e).
Proof. intro s. generalize (eq_refl (lpend s)). generalize (lpend s) at 2 3. intros R HR. unfold created. repeat frame1. Qed.
#[export] Instance kp_gce_created e : Keeps2 gce (created e).
Proof. intro s. generalize (eq_refl (gce s)). generalize (gce s) at 2 3. intros R HR. unfold created. repeat frame1. Qed.
#[export] Instance kp_gcc_created e : Keeps2 gcc (created e).
Proof. intro s. generalize (eq_refl (gcc s)). generalize (gcc s) at 2 3. intros R HR. unfold created. repeat frame1. Qed.
#[export] Instance kp_procs_created e : Keeps2 procs (created e).
Proof. intro s. generalize (eq_refl (procs s)). generalize (procs s) at 2 3. intros R HR. unfold created. repeat frame1. Qed.
#[export] Instance kp_seqn_created e : Keeps2 seqn (created e).
Proof. intro s. generalize (eq_refl (seqn s)). generalize (seqn s) at 2 3. intros R HR. unfold created. repeat frame1. Qed.
#[export] Instance kp_qdata_created e : Keeps2 qdata (created e).
Proof. intro s. generalize (eq_refl (qdata s)). generalize (qdata s) at 2 3. intros R HR. unfold created. repeat frame1. Qed.
#[export] Instance kp_qcmd_created e : Keeps2 qcmd (created e).
Proof. intro s. generalize (eq_refl (qcmd s)). generalize (qcmd s) at 2 3. intros R HR. unfold created. repeat frame1. Qed.
#[export] Instance kp_cs_created e : Keeps2 cs (created e).
Proof. intro s. generalize (eq_refl (cs s)). generalize (cs s) at 2 3. intros R HR. unfold created. repeat frame1. Qed.
#[export] Instance kp_nextc_created e : Keeps2 nextc (created e).
Proof. intro s. generalize (eq_refl (nextc s)). generalize (nextc s) at 2 3. intros R HR. unfold created. repeat frame1. Qed.
#[export] Instance kp_nexte_created e : Keeps2 nexte (created e).
Proof. intro s. generalize (eq_refl (nexte s)). generalize (nexte s) at 2 3. intros R HR. unfold created. repeat frame1. Qed.
#[export] Instance kp_orc_created e : Keeps2 orc (created e).
Proof. intro s. generalize (eq_refl (orc s)). generalize (orc s) at 2 3. intros R HR. unfold created. repeat frame1. Qed.
#[export] Instance kp_salts_created e : Keeps2 salts (created e).
Proof. intro s. generalize (eq_refl (salts s)). generalize (salts s) at 2 3. intros R HR. unfold created. repeat frame1. Qed.
#[export] Instance kp_log_created e : Keeps2 log (created e).
Proof. intro s. generalize (eq_refl (log s)). generalize (log s) at 2 3. intros R HR. unfold created. repeat frame1. Qed.

#[export] Instance kp_cf_alloc_seq : Keeps2 cf alloc_seq.
Proof. intro s. generalize (eq_refl (cf s)). generalize (cf s) at 2 3. intros R HR. unfold alloc_seq. repeat frame1. Qed.
#[export] Instance kp_nst_alloc_seq : Keeps2 nst alloc_seq.
Proof. intro s. generalize (eq_refl (nst s)). generalize (nst s) at 2 3. intros R HR. unfold alloc_seq. repeat frame1. Qed.
#[export] Instance kp_self_alloc_seq : Keeps2 self alloc_seq.
Proof. intro s. generalize (eq_refl (self s)). generalize (self s) at 2 3. intros R HR. unfold alloc_seq. repeat frame1. Qed.
#[export] Instance kp_parent_alloc_seq : Keeps2 parent alloc_seq.
Proof. intro s. generalize (eq_refl (parent s)). generalize (parent s) at 2 3. intros R HR. unfold alloc_seq. repeat frame1. Qed.
#[export] Instance kp_routes_alloc_seq : Keeps2 routes alloc_seq.
Proof. intro s. generalize (eq_refl (routes s)). generalize (routes s) at 2 3. intros R HR. unfold alloc_seq. repeat frame1. Qed.
#[export] Instance kp_fl_reset_alloc_seq : Keeps2 fl_reset alloc_seq.
Proof. intro s. generalize (eq_refl (fl_reset s)). generalize (fl_reset s) at 2 3. intros R HR. unfold alloc_seq. repeat frame1. Qed.
#[export] Instance kp_fl_gcreset_alloc_seq : Keeps2 fl_gcreset alloc_seq.
Proof. intro s. generalize (eq_refl (fl_gcreset s)). generalize (fl_gcreset s) at 2 3. intros R HR. unfold alloc_seq. repeat frame1. Qed.
#[export] Instance kp_fl_act_alloc_seq : Keeps2 fl_act alloc_seq.
Proof. intro s. generalize (eq_refl (fl_act s)). generalize (fl_act s) at 2 3. intros R HR. unfold alloc_seq. repeat frame1. Qed.
#[export] Instance kp_fl_preg_alloc_seq : Keeps2 fl_preg alloc_seq.
Proof. intro s. generalize (eq_refl (fl_preg s)). generalize (fl_preg s) at 2 3. intros R HR. unfold alloc_seq. repeat frame1. Qed.
#[export] Instance kp_fl_shut_alloc_seq : Keeps2 fl_shut alloc_seq.
Proof. intro s. generalize (eq_refl (fl_shut s)). generalize (fl_shut s) at 2 3. intros R HR. unfold alloc_seq. repeat frame1. Qed.
#[export] Instance kp_fl_self_alloc_seq : Keeps2 fl_self alloc_seq.
Proof. intro s. generalize (eq_refl (fl_self s)). generalize (fl_self s) at 2 3. intros R HR. unfold alloc_seq. repeat frame1. Qed.
#[export] Instance kp_fl_gce_alloc_seq : Keeps2 fl_gce alloc_seq.
Proof. intro s. generalize (eq_refl (fl_gce s)). generalize (fl_gce s) at 2 3. intros R HR. unfold alloc_seq. repeat frame1. Qed.
#[export] Instance kp_fl_gcc_alloc_seq : Keeps2 fl_gcc alloc_seq.
Proof. intro s. generalize (eq_refl (fl_gcc s)). generalize (fl_gcc s) at 2 3. intros R HR. unfold alloc_seq. repeat frame1. Qed.
#[export] Instance kp_sec_alloc_seq : Keeps2 sec alloc_seq.
Proof. intro s. generalize (eq_refl (sec s)). generalize (sec s) at 2 3. intros R HR. unfold alloc_seq. repeat frame1. Qed.
#[export] Instance kp_popr_alloc_seq : Keeps2 popr alloc_seq.
Proof. intro s. generalize (eq_refl (popr s)). generalize (popr s) at 2 3. intros R HR. unfold alloc_seq. repeat frame1. Qed.
#[export] Instance kp_connecting_alloc_seq : Keeps2 connecting alloc_seq.
Proof. intro s. generalize (eq_refl (connecting s)). generalize (connecting s) at 2 3. intros R HR. unfold alloc_seq. repeat frame1. Qed.
#[export] Instance kp_pings_alloc_seq : Keeps2 pings alloc_seq.
Proof. intro s. generalize (eq_refl (pings s)). generalize (pings s) at 2 3. intros R HR. unfold alloc_seq. repeat frame1. Qed.
#[export] Instance kp_pend_alloc_seq : Keeps2 pend alloc_seq.
Proof. intro s. generalize (eq_refl (pend s)). generalize (pend s) at 2 3. intros R HR. unfold alloc_seq. repeat frame1. Qed.
#[export] Instance kp_lpend_alloc_seq : Keeps2 lpend alloc_seq.
Proof. intro s. generalize (eq_refl (lpend s)). generalize (lpend s) at 2 3. intros R HR. unfold alloc_seq. repeat frame1. Qed.
#[export] Instance kp_gce_alloc_seq : Keeps2 gce alloc_seq.
Proof. intro s. generalize (eq_refl (gce s)). generalize (gce s) at 2 3. intros R HR. unfold alloc_seq. repeat frame1. Qed.
#[export] Instance kp_gcc_alloc_seq : Keeps2 gcc alloc_seq.
Proof. intro s. generalize (eq_refl (gcc s)). generalize (gcc s) at 2 3. intros R HR. unfold alloc_seq. repeat frame1. Qed.
#[export] Instance kp_procs_alloc_seq : Keeps2 procs alloc_seq.
Proof. intro s. generalize (eq_refl (procs s)). generalize (procs s) at 2 3. intros R HR. unfold alloc_seq. repeat frame1. Qed.
#[export] Instance kp_qdata_alloc_seq : Keeps2 qdata alloc_seq.
Proof. intro s. generalize (eq_refl (qdata s)). generalize (qdata s) at 2 3. intros R HR. unfold alloc_seq. repeat frame1. Qed.
#[export] Instance kp_qcmd_alloc_seq : Keeps2 qcmd alloc_seq.
Proof. intro s. generalize (eq_refl (qcmd s)). generalize (qcmd s) at 2 3. intros R HR. unfold alloc_seq. repeat frame1. Qed.
#[export] Instance kp_cs_alloc_seq : Keeps2 cs alloc_seq.
Proof. intro s. generalize (eq_refl (cs s)). generalize (cs s) at 2 3. intros R HR. unfold alloc_seq. repeat frame1. Qed.
#[export] Instance kp_nextc_alloc_seq : Keeps2 nextc alloc_seq.
Proof. intro s. generalize (eq_refl (nextc s)). generalize (nextc s) at 2 3. intros R HR. unfold alloc_seq. repeat frame1. Qed.
#[export] Instance kp_es_alloc_seq : Keeps2 es alloc_seq.
Proof. intro s. generalize (eq_refl (es s)). generalize (es s) at 2 3. intros R HR. unfold alloc_seq. repeat frame1. Qed.
#[export] Instance kp_nexte_alloc_seq : Keeps2 nexte alloc_seq.
Proof. intro s. generalize (eq_refl (nexte s)). generalize (nexte s) at 2 3. intros R HR. unfold alloc_seq. repeat frame1. Qed.
#[export] Instance kp_orc_alloc_seq : Keeps2 orc alloc_seq.
Proof. intro s. generalize (eq_refl (orc s)). generalize (orc s) at 2 3. intros R HR. unfold alloc_seq. repeat frame1. Qed.
#[export] Instance kp_salts_alloc_seq : Keeps2 salts alloc_seq.
Proof. intro s. generalize (eq_refl (salts s)). generalize (salts s) at 2 3. intros R HR. unfold alloc_seq. repeat frame1. Qed.
#[export] Instance kp_log_alloc_seq : Keeps2 log alloc_seq.
Proof. intro s. generalize (eq_refl (log s)). generalize (log s) at 2 3. intros R HR. unfold alloc_seq. repeat frame1. Qed.

#[export] Instance kp_cf_take_orc : Keeps2 cf take_orc.
Proof. intro s. generalize (eq_refl (cf s)). generalize (cf s) at 2 3. intros R HR. unfold take_orc. repeat frame1. Qed.
#[export] Instance kp_nst_take_orc : Keeps2 nst take_orc.
Proof. intro s. generalize (eq_refl (nst s)). generalize (nst s) at 2 3. intros R HR. unfold take_orc. repeat frame1. Qed.
#[export] Instance kp_self_take_orc : Keeps2 self take_orc.
Proof. intro s. generalize (eq_refl (self s)). generalize (self s) at 2 3. intros R HR. unfold take_orc. repeat frame1. Qed.
#[export] Instance kp_parent_take_orc : Keeps2 parent take_orc.
Proof. intro s. generalize (eq_refl (parent s)). generalize (parent s) at 2 3. intros R HR. unfold take_orc. repeat frame1. Qed.
#[export] Instance kp_routes_take_orc : Keeps2 routes take_orc.
Proof. intro s. generalize (eq_refl (routes s)). generalize (routes s) at 2 3. intros R HR. unfold take_orc. repeat frame1. Qed.
#[export] Instance kp_fl_reset_take_orc : Keeps2 fl_reset take_orc.
Proof. intro s. generalize (eq_refl (fl_reset s)). generalize (fl_reset s) at 2 3. intros R HR. unfold take_orc. repeat frame1. Qed.
#[export] Instance kp_fl_gcreset_take_orc : Keeps2 fl_gcreset take_orc.
Proof. intro s. generalize (eq_refl (fl_gcreset s)). generalize (fl_gcreset s) at 2 3. intros R HR. unfold take_orc. repeat frame1. Qed.
#[export] Instance kp_fl_act_take_orc : Keeps2 fl_act take_orc.
Proof. intro s. generalize (eq_refl (fl_act s)). generalize (fl_act s) at 2 3. intros R HR. unfold take_orc. repeat frame1. Qed.
#[export] Instance kp_fl_preg_take_orc : Keeps2 fl_preg take_orc.
Proof. intro s. generalize (eq_refl (fl_preg s)). generalize (fl_preg s) at 2 3. intros R HR. unfold take_orc. repeat frame1. Qed.
#[export] Instance kp_fl_shut_take_orc : Keeps2 fl_shut take_orc.
Proof. intro s. generalize (eq_refl (fl_shut s)). generalize (fl_shut s) at 2 3. intros R HR. unfold take_orc. repeat frame1. Qed.
#[export] Instance kp_fl_self_take_orc : Keeps2 fl_self take_orc.
Proof. intro s. generalize (eq_refl (fl_self s)). generalize (fl_self s) at 2 3. intros R HR. unfold take_orc. repeat frame1. Qed.
#[export] Instance kp_fl_gce_take_orc : Keeps2 fl_gce take_orc.
Proof. intro s. generalize (eq_refl (fl_gce s)). generalize (fl_gce s) at 2 3. intros R HR. unfold take_orc. repeat frame1. Qed.
#[export] Instance kp_fl_gcc_take_orc : Keeps2 fl_gcc take_orc.
Proof. intro s. generalize (eq_refl (fl_gcc s)). generalize (fl_gcc s) at 2 3. intros R HR. unfold take_orc. repeat frame1. Qed.
#[export] Instance kp_sec_take_orc : Keeps2 sec take_orc.
Proof. intro s. generalize (eq_refl (sec s)). generalize (sec s) at 2 3. intros R HR. unfold take_orc. repeat frame1. Qed.
#[export] Instance kp_popr_take_orc : Keeps2 popr take_orc.
Proof. intro s. generalize (eq_refl (popr s)). generalize (popr s) at 2 3. intros R HR. unfold take_orc. repeat frame1. Qed.
#[export] Instance kp_connecting_take_orc : Keeps2 connecting take_orc.
Proof. intro s. generalize (eq_refl (connecting s)). generalize (connecting s) at 2 3. intros R HR. unfold take_orc. repeat frame1. Qed.
#[export] Instance kp_pings_take_orc : Keeps2 pings take_orc.
Proof. intro s. generalize (eq_refl (pings s)). generalize (pings s) at 2 3. intros R HR. unfold take_orc. repeat frame1. Qed.
#[export] Instance kp_pend_take_orc : Keeps2 pend take_orc.
Proof. intro s. generalize (eq_refl (pend s)). generalize (pend s) at 2 3. intros R HR. unfold take_orc. repeat frame1. Qed.
#[export] Instance kp_lpend_take_orc : Keeps2 lpend take_orc.
Proof. intro s. generalize (eq_refl (lpend s)). generalize (lpend s) at 2 3. intros R HR. unfold take_orc. repeat frame1. Qed.
#[export] Instance kp_gce_take_orc : Keeps2 gce take_orc.
Proof. intro s. generalize (eq_refl (gce s)). generalize (gce s) at 2 3. intros R HR. unfold take_orc. repeat frame1. Qed.
#[export] Instance kp_gcc_take_orc : Keeps2 gcc take_orc.
Proof. intro s. generalize (eq_refl (gcc s)). generalize (gcc s) at 2 3. intros R HR. unfold take_orc. repeat frame1. Qed.
#[export] Instance kp_procs_take_orc : Keeps2 procs take_orc.
Proof. intro s. generalize (eq_refl (procs s)). generalize (procs s) at 2 3. intros R HR. unfold take_orc. repeat frame1. Qed.
#[export] Instance kp_seqn_take_orc : Keeps2 seqn take_orc.
Proof. intro s. generalize (eq_refl (seqn s)). generalize (seqn s) at 2 3. intros R HR. unfold take_orc. repeat frame1. Qed.
#[export] Instance kp_qdata_take_orc : Keeps2 qdata take_orc.
Proof. intro s. generalize (eq_refl (qdata s)). generalize (qdata s) at 2 3. intros R HR. unfold take_orc. repeat frame1. Qed.
#[export] Instance kp_qcmd_take_orc : Keeps2 qcmd take_orc.
Proof. intro s. generalize (eq_refl (qcmd s)). generalize (qcmd s) at 2 3. intros R HR. unfold take_orc. repeat frame1. Qed.
#[export] Instance kp_cs_take_orc : Keeps2 cs take_orc.
Proof. intro s. generalize (eq_refl (cs s)). generalize (cs s) at 2 3. intros R HR. unfold take_orc. repeat frame1. Qed.
#[export] Instance kp_nextc_take_orc : Keeps2 nextc take_orc.
Proof. intro s. generalize (eq_refl (nextc s)). generalize (nextc s) at 2 3. intros R HR. unfold take_orc. repeat frame1. Qed.
#[export] Instance kp_es_take_orc : Keeps2 es take_orc.
Proof. intro s. generalize (eq_refl (es s)). generalize (es s) at 2 3. intros R HR. unfold take_orc. repeat frame1. Qed.
#[export] Instance kp_nexte_take_orc : Keeps2 nexte take_orc.
Proof. intro s. generalize (eq_refl (nexte s)). generalize (nexte s) at 2 3. intros R HR. unfold take_orc. repeat frame1. Qed.
#[export] Instance kp_salts_take_orc : Keeps2 salts take_orc.
Proof. intro s. generalize (eq_refl (salts s)). generalize (salts s) at 2 3. intros R HR. unfold take_orc. repeat frame1. Qed.
#[export] Instance kp_log_take_orc : Keeps2 log take_orc.
Proof. intro s. generalize (eq_refl (log s)). generalize (log s) at 2 3. intros R HR. unfold take_orc. repeat frame1. Qed.

#[export] Instance kp_cf_take_salt : Keeps2 cf take_salt.
Proof. intro s. generalize (eq_refl (cf s)). generalize (cf s) at 2 3. intros R HR. unfold take_salt. repeat frame1. Qed.
#[export] Instance kp_nst_take_salt : Keeps2 nst take_salt.
Proof. intro s. generalize (eq_refl (nst s)). generalize (nst s) at 2 3. intros R HR. unfold take_salt. repeat frame1. Qed.
#[export] Instance kp_self_take_salt : Keeps2 self take_salt.
Proof. intro s. generalize (eq_refl (self s)). generalize (self s) at 2 3. intros R HR. unfold take_salt. repeat frame1. Qed.
#[export] Instance kp_parent_take_salt : Keeps2 parent take_salt.
Proof. intro s. generalize (eq_refl (parent s)). generalize (parent s) at 2 3. intros R HR. unfold take_salt. repeat frame1. Qed.
#[export] Instance kp_routes_take_salt : Keeps2 routes take_salt.
Proof. intro s. generalize (eq_refl (routes s)). generalize (routes s) at 2 3. intros R HR. unfold take_salt. repeat frame1. Qed.
#[export] Instance kp_fl_reset_take_salt : Keeps2 fl_reset take_salt.
Proof. intro s. generalize (eq_refl (fl_reset s)). generalize (fl_reset s) at 2 3. intros R HR. unfold take_salt. repeat frame1. Qed.
#[export] Instance kp_fl_gcreset_take_salt : Keeps2 fl_gcreset take_salt.
Proof. intro s. generalize (eq_refl (fl_gcreset s)). generalize (fl_gcreset s) at 2 3. intros R HR. unfold take_salt. repeat frame1. Qed.
#[export] Instance kp_fl_act_take_salt : Keeps2 fl_act take_salt.
Proof. intro s. generalize (eq_refl (fl_act s)). generalize (fl_act s) at 2 3. intros R HR. unfold take_salt. repeat frame1. Qed.
#[export] Instance kp_fl_preg_take_salt : Keeps2 fl_preg take_salt.
Proof. intro s. generalize (eq_refl (fl_preg s)). generalize (fl_preg s) at 2 3. intros R HR. unfold take_salt. repeat frame1. Qed.
#[export] Instance kp_fl_shut_take_salt : Keeps2 fl_shut take_salt.
Proof. intro s. generalize (eq_refl (fl_shut s)). generalize (fl_shut s) at 2 3. intros R HR. unfold take_salt. repeat frame1. Qed.
#[export] Instance kp_fl_self_take_salt : Keeps2 fl_self take_salt.
Proof. intro s. generalize (eq_refl (fl_self s)). generalize (fl_self s) at 2 3. intros R HR. unfold take_salt. repeat frame1. Qed.
#[export] Instance kp_fl_gce_take_salt : Keeps2 fl_gce take_salt.
Proof. intro s. generalize (eq_refl (fl_gce s)). generalize (fl_gce s) at 2 3. intros R HR. unfold take_salt. repeat frame1. Qed.
#[export] Instance kp_fl_gcc_take_salt : Keeps2 fl_gcc take_salt.
Proof. intro s. generalize (eq_refl (fl_gcc s)). generalize (fl_gcc s) at 2 3. intros R HR. unfold take_salt. repeat frame1. Qed.
#[export] Instance kp_sec_take_salt : Keeps2 sec take_salt.
Proof. intro s. generalize (eq_refl (sec s)). generalize (sec s) at 2 3. intros R HR. unfold take_salt. repeat frame1. Qed.
#[export] Instance kp_popr_take_salt : Keeps2 popr take_salt.
Proof. intro s. generalize (eq_refl (popr s)). generalize (popr s) at 2 3. intros R HR. unfold take_salt. repeat frame1. Qed.
#[export] Instance kp_connecting_take_salt : Keeps2 connecting take_salt.
Proof. intro s. generalize (eq_refl (connecting s)). generalize (connecting s) at 2 3. intros R HR. unfold take_salt. repeat frame1. Qed.
#[export] Instance kp_pings_take_salt : Keeps2 pings take_salt.
Proof. intro s. generalize (eq_refl (pings s)). generalize (pings s) at 2 3. intros R HR. unfold take_salt. repeat frame1. Qed.
#[export] Instance kp_pend_take_salt : Keeps2 pend take_salt.
Proof. intro s. generalize (eq_refl (pend s)). generalize (pend s) at 2 3. intros R HR. unfold take_salt. repeat frame1. Qed.
#[export] Instance kp_lpend_take_salt : Keeps2 lpend take_salt.
Proof. intro s. generalize (eq_refl (lpend s)). generalize (lpend s) at 2 3. intros R HR. unfold take_salt. repeat frame1. Qed.
#[export] Instance kp_gce_take_salt : Keeps2 gce take_salt.
Proof. intro s. generalize (eq_refl (gce s)). generalize (gce s) at 2 3. intros R HR. unfold take_salt. repeat frame1. Qed.
#[export] Instance kp_gcc_take_salt : Keeps2 gcc take_salt.
Proof. intro s. generalize (eq_refl (gcc s)). generalize (gcc s) at 2 3. intros R HR. unfold take_salt. repeat frame1. Qed.
#[export] Instance kp_procs_take_salt : Keeps2 procs take_salt.
Proof. intro s. generalize (eq_refl (procs s)). generalize (procs s) at 2 3. intros R HR. unfold take_salt. repeat frame1. Qed.
#[export] Instance kp_seqn_take_salt : Keeps2 seqn take_salt.
Proof. intro s. generalize (eq_refl (seqn s)). generalize (seqn s) at 2 3. intros R HR. unfold take_salt. repeat frame1. Qed.
#[export] Instance kp_qdata_take_salt : Keeps2 qdata take_salt.
Proof. intro s. generalize (eq_refl (qdata s)). generalize (qdata s) at 2 3. intros R HR. unfold take_salt. repeat frame1. Qed.
#[export] Instance kp_qcmd_take_salt : Keeps2 qcmd take_salt.
Proof. intro s. generalize (eq_refl (qcmd s)). generalize (qcmd s) at 2 3. intros R HR. unfold take_salt. repeat frame1. Qed.
#[export] Instance kp_cs_take_salt : Keeps2 cs take_salt.
Proof. intro s. generalize (eq_refl (cs s)). generalize (cs s) at 2 3. intros R HR. unfold take_salt. repeat frame1. Qed.
#[export] Instance kp_nextc_take_salt : Keeps2 nextc take_salt.
Proof. intro s. generalize (eq_refl (nextc s)). generalize (nextc s) at 2 3. intros R HR. unfold take_salt. repeat frame1. Qed.
#[export] Instance kp_es_take_salt : Keeps2 es take_salt.
Proof. intro s. generalize (eq_refl (es s)). generalize (es s) at 2 3. intros R HR. unfold take_salt. repeat frame1. Qed.
#[export] Instance kp_nexte_take_salt : Keeps2 nexte take_salt.
Proof. intro s. generalize (eq_refl (nexte s)). generalize (nexte s) at 2 3. intros R HR. unfold take_salt. repeat frame1. Qed.
#[export] Instance kp_orc_take_salt : Keeps2 orc take_salt.
Proof. intro s. generalize (eq_refl (orc s)). generalize (orc s) at 2 3. intros R HR. unfold take_salt. repeat frame1. Qed.
#[export] Instance kp_log_take_salt : Keeps2 log take_salt.
Proof. intro s. generalize (eq_refl (log s)). generalize (log s) at 2 3. intros R HR. unfold take_salt. repeat frame1. Qed.

#[export] Instance kp_cf_push c m : Keeps2 cf (push c m).
Proof. intro s. generalize (eq_refl (cf s)). generalize (cf s) at 2 3. intros R HR. unfold push. repeat frame1. Qed.
#[export] Instance kp_nst_push c m : Keeps2 nst (push c m).
Proof. intro s. generalize (eq_refl (nst s)). generalize (nst s) at 2 3. intros R HR. unfold push. repeat frame1. Qed.
#[export] Instance kp_self_push c m : Keeps2 self (push c m).
Proof. intro s. generalize (eq_refl (self s)). generalize (self s) at 2 3. intros R HR. unfold push. repeat frame1. Qed.
#[export] Instance kp_parent_push c m : Keeps2 parent (push c m).
Proof. intro s. generalize (eq_refl (parent s)). generalize (parent s) at 2 3. intros R HR. unfold push. repeat frame1. Qed.
#[export] Instance kp_routes_push c m : Keeps2 routes (push c m).
Proof. intro s. generalize (eq_refl (routes s)). generalize (routes s) at 2 3. intros R HR. unfold push. repeat frame1. Qed.
#[export] Instance kp_fl_reset_push c m : Keeps2 fl_reset (push c m).
Proof. intro s. generalize (eq_refl (fl_reset s)). generalize (fl_reset s) at 2 3. intros R HR. unfold push. repeat frame1. Qed.
#[export] Instance kp_fl_gcreset_push c m : Keeps2 fl_gcreset (push c m).
Proof. intro s. generalize (eq_refl (fl_gcreset s)). generalize (fl_gcreset s) at 2 3. intros R HR. unfold push. repeat frame1. Qed.
#[export] Instance kp_fl_act_push c m : Keeps2 fl_act (push c m).
Proof. intro s. generalize (eq_refl (fl_act s)). generalize (fl_act s) at 2 3. intros R HR. unfold push. repeat frame1. Qed.
#[export] Instance kp_fl_preg_push c m : Keeps2 fl_preg (push c m).
Proof. intro s. generalize (eq_refl (fl_preg s)). generalize (fl_preg s) at 2 3. intros R HR. unfold push. repeat frame1. Qed.
#[export] Instance kp_fl_shut_push c m : Keeps2 fl_shut (push c m).
Proof. intro s. generalize (eq_refl (fl_shut s)). generalize (fl_shut s) at 2 3. intros R HR. unfold push. repeat frame1. Qed.
#[export] Instance kp_fl_self_push c m : Keeps2 fl_self (push c m).
Proof. intro s. generalize (eq_refl (fl_self s)). generalize (fl_self s) at 2 3. intros R HR. unfold push. repeat frame1. Qed.
#[export] Instance kp_fl_gce_push c m : Keeps2 fl_gce (push c m).
Proof. intro s. generalize (eq_refl (fl_gce s)). generalize (fl_gce s) at 2 3. intros R HR. unfold push. repeat frame1. Qed.
#[export] Instance kp_fl_gcc_push c m : Keeps2 fl_gcc (push c m).
Proof. intro s. generalize (eq_refl (fl_gcc s)). generalize (fl_gcc s) at 2 3. intros R HR. unfold push. repeat frame1. Qed.
#[export] Instance kp_sec_push c m : Keeps2 sec (push c m).
Proof. intro s. generalize (eq_refl (sec s)). generalize (sec s) at 2 3. intros R HR. unfold push. repeat frame1. Qed.
#[export] Instance kp_popr_push c m : Keeps2 popr (push c m).
Proof. intro s. generalize (eq_refl (popr s)). generalize (popr s) at 2 3. intros R HR. unfold push. repeat frame1. Qed.
#[export] Instance kp_connecting_push c m : Keeps2 connecting (push c m).
Proof. intro s. generalize (eq_refl (connecting s)). generalize (connecting s) at 2 3. intros R HR. unfold push. repeat frame1. Qed.
#[export] Instance kp_pings_push c m : Keeps2 pings (push c m).
Proof. intro s. generalize (eq_refl (pings s)). generalize (pings s) at 2 3. intros R HR. unfold push. repeat frame1. Qed.
#[export] Instance kp_pend_push c m : Keeps2 pend (push c m).
Proof. intro s. generalize (eq_refl (pend s)). generalize (pend s) at 2 3. intros R HR. unfold push. repeat frame1. Qed.
#[export] Instance kp_lpend_push c m : Keeps2 lpend (push c m).
Proof. intro s. generalize (eq_refl (lpend s)). generalize (lpend s) at 2 3. intros R HR. unfold push. repeat frame1. Qed.
#[export] Instance kp_gce_push c m : Keeps2 gce (push c m).
Proof. intro s. generalize (eq_refl (gce s)). generalize (gce s) at 2 3. intros R HR. unfold push. repeat frame1. Qed.
#[export] Instance kp_gcc_push c m : Keeps2 gcc (push c m).
Proof. intro s. generalize (eq_refl (gcc s)). generalize (gcc s) at 2 3. intros R HR. unfold push. repeat frame1. Qed.
#[export] Instance kp_procs_push c m : Keeps2 procs (push c m).
Proof. intro s. generalize (eq_refl (procs s)). generalize (procs s) at 2 3. intros R HR. unfold push. repeat frame1. Qed.
#[export] Instance kp_seqn_push c m : Keeps2 seqn (push c m).
Proof. intro s. generalize (eq_refl (seqn s)). generalize (seqn s) at 2 3. intros R HR. unfold push. repeat frame1. Qed.
#[export] Instance kp_qdata_push c m : Keeps2 qdata (push c m).
Proof. intro s. generalize (eq_refl (qdata s)). generalize (qdata s) at 2 3. intros R HR. unfold push. repeat frame1. Qed.
#[export] Instance kp_qcmd_push c m : Keeps2 qcmd (push c m).
Proof. intro s. generalize (eq_refl (qcmd s)). generalize (qcmd s) at 2 3. intros R HR. unfold push. repeat frame1. Qed.
#[export] Instance kp_nextc_push c m : Keeps2 nextc (push c m).
Proof. intro s. generalize (eq_refl (nextc s)). generalize (nextc s) at 2 3. intros R HR. unfold push. repeat frame1. Qed.
#[export] Instance kp_es_push c m : Keeps2 es (push c m).
Proof. intro s. generalize (eq_refl (es s)). generalize (es s) at 2 3. intros R HR. unfold push. repeat frame1. Qed.
#[export] Instance kp_nexte_push c m : Keeps2 nexte (push c m).
Proof. intro s. generalize (eq_refl (nexte s)). generalize (nexte s) at 2 3. intros R HR. unfold push. repeat frame1. Qed.
#[export] Instance kp_salts_push c m : Keeps2 salts (push c m).
Proof. intro s. generalize (eq_refl (salts s)). generalize (salts s) at 2 3. intros R HR. unfold push. repeat frame1. Qed.

#[export] Instance kp_cf_send_on c m : Keeps2 cf (send_on c m).
Proof. intro s. generalize (eq_refl (cf s)). generalize (cf s) at 2 3. intros R HR. unfold send_on. repeat frame1. Qed.
#[export] Instance kp_nst_send_on c m : Keeps2 nst (send_on c m).
Proof. intro s. generalize (eq_refl (nst s)). generalize (nst s) at 2 3. intros R HR. unfold send_on. repeat frame1. Qed.
#[export] Instance kp_self_send_on c m : Keeps2 self (send_on c m).
Proof. intro s. generalize (eq_refl (self s)). generalize (self s) at 2 3. intros R HR. unfold send_on. repeat frame1. Qed.
#[export] Instance kp_parent_send_on c m : Keeps2 parent (send_on c m).
Proof. intro s. generalize (eq_refl (parent s)). generalize (parent s) at 2 3. intros R HR. unfold send_on. repeat frame1. Qed.
#[export] Instance kp_routes_send_on c m : Keeps2 routes (send_on c m).
Proof. intro s. generalize (eq_refl (routes s)). generalize (routes s) at 2 3. intros R HR. unfold send_on. repeat frame1. Qed.
#[export] Instance kp_fl_reset_send_on c m : Keeps2 fl_reset (send_on c m).
Proof. intro s. generalize (eq_refl (fl_reset s)). generalize (fl_reset s) at 2 3. intros R HR. unfold send_on. repeat frame1. Qed.
#[export] Instance kp_fl_gcreset_send_on c m : Keeps2 fl_gcreset (send_on c m).
Proof. intro s. generalize (eq_refl (fl_gcreset s)). generalize (fl_gcreset s) at 2 3. intros R HR. unfold send_on. repeat frame1. Qed.
#[export] Instance kp_fl_act_send_on c m : Keeps2 fl_act (send_on c m).
Proof. intro s. generalize (eq_refl (fl_act s)). generalize (fl_act s) at 2 3. intros R HR. unfold send_on. repeat frame1. Qed.
#[export] Instance kp_fl_preg_send_on c m : Keeps2 fl_preg (send_on c m).
Proof. intro s. generalize (eq_refl (fl_preg s)). generalize (fl_preg s) at 2 3. intros R HR. unfold send_on. repeat frame1. Qed.
#[export] Instance kp_fl_shut_send_on c m : Keeps2 fl_shut (send_on c m).
Proof. intro s. generalize (eq_refl (fl_shut s)). generalize (fl_shut s) at 2 3. intros R HR. unfold send_on. repeat frame1. Qed.
#[export] Instance kp_fl_self_send_on c m : Keeps2 fl_self (send_on c m).
Proof. intro s. generalize (eq_refl (fl_self s)). generalize (fl_self s) at 2 3. intros R HR. unfold send_on. repeat frame1. Qed.
#[export] Instance kp_fl_gce_send_on c m : Keeps2 fl_gce (send_on c m).
Proof. intro s. generalize (eq_refl (fl_gce s)). generalize (fl_gce s) at 2 3. intros R HR. unfold send_on. repeat frame1. Qed.
#[export] Instance kp_fl_gcc_send_on c m : Keeps2 fl_gcc (send_on c m).
Proof. intro s. generalize (eq_refl (fl_gcc s)). generalize (fl_gcc s) at 2 3. intros R HR. unfold send_on. repeat frame1. Qed.
#[export] Instance kp_sec_send_on c m : Keeps2 sec (send_on c m).
Proof. intro s. generalize (eq_refl (sec s)). generalize (sec s) at 2 3. intros R HR. unfold send_on. repeat frame1. Qed.
#[export] Instance kp_popr_send_on c m : Keeps2 popr (send_on c m).
Proof. intro s. generalize (eq_refl (popr s)). generalize (popr s) at 2 3. intros R HR. unfold send_on. repeat frame1. Qed.
#[export] Instance kp_connecting_send_on c m : Keeps2 connecting (send_on c m).
Proof. intro s. generalize (eq_refl (connecting s)). generalize (connecting s) at 2 3. intros R HR. unfold send_on. repeat frame1. Qed.
#[export] Instance kp_pings_send_on c m : Keeps2 pings (send_on c m).
Proof. intro s. generalize (eq_refl (pings s)). generalize (pings s) at 2 3. intros R HR. unfold send_on. repeat frame1. Qed.
#[export] Instance kp_pend_send_on c m : Keeps2 pend (send_on c m).
Proof. intro s. generalize (eq_refl (pend s)). generalize (pend s) at 2 3. intros R HR. unfold send_on. repeat frame1. Qed.
#[export] Instance kp_lpend_send_on c m : Keeps2 lpend (send_on c m).
Proof. intro s. generalize (eq_refl (lpend s)). generalize (lpend s) at 2 3. intros R HR. unfold send_on. repeat frame1. Qed.
#[export] Instance kp_gce_send_on c m : Keeps2 gce (send_on c m).
Proof. intro s. generalize (eq_refl (gce s)). generalize (gce s) at 2 3. intros R HR. unfold send_on. repeat frame1. Qed.
#[export] Instance kp_gcc_send_on c m : Keeps2 gcc (send_on c m).
Proof. intro s. generalize (eq_refl (gcc s)). generalize (gcc s) at 2 3. intros R HR. unfold send_on. repeat frame1. Qed.
#[export] Instance kp_procs_send_on c m : Keeps2 procs (send_on c m).
Proof. intro s. generalize (eq_refl (procs s)). generalize (procs s) at 2 3. intros R HR. unfold send_on. repeat frame1. Qed.
#[export] Instance kp_seqn_send_on c m : Keeps2 seqn (send_on c m).
Proof. intro s. generalize (eq_refl (seqn s)). generalize (seqn s) at 2 3. intros R HR. unfold send_on. repeat frame1. Qed.
#[export] Instance kp_qdata_send_on c m : Keeps2 qdata (send_on c m).
Proof. intro s. generalize (eq_refl (qdata s)). generalize (qdata s) at 2 3. intros R HR. unfold send_on. repeat frame1. Qed.
#[export] Instance kp_qcmd_send_on c m : Keeps2 qcmd (send_on c m).
Proof. intro s. generalize (eq_refl (qcmd s)). generalize (qcmd s) at 2 3. intros R HR. unfold send_on. repeat frame1. Qed.
#[export] Instance kp_nextc_send_on c m : Keeps2 nextc (send_on c m).
Proof. intro s. generalize (eq_refl (nextc s)). generalize (nextc s) at 2 3. intros R HR. unfold send_on. repeat frame1. Qed.
#[export] Instance kp_es_send_on c m : Keeps2 es (send_on c m).
Proof. intro s. generalize (eq_refl (es s)). generalize (es s) at 2 3. intros R HR. unfold send_on. repeat frame1. Qed.
#[export] Instance kp_nexte_send_on c m : Keeps2 nexte (send_on c m).
Proof. intro s. generalize (eq_refl (nexte s)). generalize (nexte s) at 2 3. intros R HR. unfold send_on. repeat frame1. Qed.
#[export] Instance kp_salts_send_on c m : Keeps2 salts (send_on c m).
Proof. intro s. generalize (eq_refl (salts s)). generalize (salts s) at 2 3. intros R HR. unfold send_on. repeat frame1. Qed.

#[export] Instance kp_cf_written c z n : Keeps cf (written c z n).
Proof. intro s. generalize (eq_refl (cf s)). generalize (cf s) at 2 3. intros R HR. unfold written. repeat frame1. Qed.
#[export] Instance kp_nst_written c z n : Keeps nst (written c z n).
Proof. intro s. generalize (eq_refl (nst s)). generalize (nst s) at 2 3. intros R HR. unfold written. repeat frame1. Qed.
#[export] Instance kp_self_written c z n : Keeps self (written c z n).
Proof. intro s. generalize (eq_refl (self s)). generalize (self s) at 2 3. intros R HR. unfold written. repeat frame1. Qed.
#[export] Instance kp_parent_written c z n : Keeps parent (written c z n).
Proof. intro s. generalize (eq_refl (parent s)). generalize (parent s) at 2 3. intros R HR. unfold written. repeat frame1. Qed.
#[export] Instance kp_routes_written c z n : Keeps routes (written c z n).
Proof. intro s. generalize (eq_refl (routes s)). generalize (routes s) at 2 3. intros R HR. unfold written. repeat frame1. Qed.
#[export] Instance kp_fl_reset_written c z n : Keeps fl_reset (written c z n).
Proof. intro s. generalize (eq_refl (fl_reset s)). generalize (fl_reset s) at 2 3. intros R HR. unfold written. repeat frame1. Qed.
#[export] Instance kp_fl_gcreset_written c z n : Keeps fl_gcreset (written c z n).
Proof. intro s. generalize (eq_refl (fl_gcreset s)). generalize (fl_gcreset s) at 2 3. intros R HR. unfold written. repeat frame1. Qed.
#[export] Instance kp_fl_act_written c z n : Keeps fl_act (written c z n).
Proof. intro s. generalize (eq_refl (fl_act s)). generalize (fl_act s) at 2 3. intros R HR. unfold written. repeat frame1. Qed.
#[export] Instance kp_fl_preg_written c z n : Keeps fl_preg (written c z n).
Proof. intro s. generalize (eq_refl (fl_preg s)). generalize (fl_preg s) at 2 3. intros R HR. unfold written. repeat frame1. Qed.
#[export] Instance kp_fl_shut_written c z n : Keeps fl_shut (written c z n).
Proof. intro s. generalize (eq_refl (fl_shut s)). generalize (fl_shut s) at 2 3. intros R HR. unfold written. repeat frame1. Qed.
#[export] Instance kp_fl_self_written c z n : Keeps fl_self (written c z n).
Proof. intro s. generalize (eq_refl (fl_self s)). generalize (fl_self s) at 2 3. intros R HR. unfold written. repeat frame1. Qed.
#[export] Instance kp_fl_gce_written c z n : Keeps fl_gce (written c z n).
Proof. intro s. generalize (eq_refl (fl_gce s)). generalize (fl_gce s) at 2 3. intros R HR. unfold written. repeat frame1. Qed.
#[export] Instance kp_fl_gcc_written c z n : Keeps fl_gcc (written c z n).
Proof. intro s. generalize (eq_refl (fl_gcc s)). generalize (fl_gcc s) at 2 3. intros R HR. unfold written. repeat frame1. Qed.
#[export] Instance kp_sec_written c z n : Keeps sec (written c z n).
Proof. intro s. generalize (eq_refl (sec s)). generalize (sec s) at 2 3. intros R HR. unfold written. repeat frame1. Qed.
#[export] Instance kp_popr_written c z n : Keeps popr (written c z n).
Proof. intro s. generalize (eq_refl (popr s)). generalize (popr s) at 2 3. intros R HR. unfold written. repeat frame1. Qed.
#[export] Instance kp_connecting_written c z n : Keeps connecting (written c z n).
Proof. intro s. generalize (eq_refl (connecting s)). generalize (connecting s) at 2 3. intros R HR. unfold written. repeat frame1. Qed.
#[export] Instance kp_pings_written c z n : Keeps pings (written c z n).
Proof. intro s. generalize (eq_refl (pings s)). generalize (pings s) at 2 3. intros R HR. unfold written. repeat frame1. Qed.
#[export] Instance kp_pend_written c z n : Keeps pend (written c z n).
Proof. intro s. generalize (eq_refl (pend s)). generalize (pend s) at 2 3. intros R HR. unfold written. repeat frame1. Qed.
#[export] Instance kp_lpend_written c z n : Keeps lpend (written c z n).
Proof. intro s. generalize (eq_refl (lpend s)). generalize (lpend s) at 2 3. intros R HR. unfold written. repeat frame1. Qed.
#[export] Instance kp_gce_written c z n : Keeps gce (written c z n).
Proof. intro s. generalize (eq_refl (gce s)). generalize (gce s) at 2 3. intros R HR. unfold written. repeat frame1. Qed.
#[export] Instance kp_gcc_written c z n : Keeps gcc (written c z n).
Proof. intro s. generalize (eq_refl (gcc s)). generalize (gcc s) at 2 3. intros R HR. unfold written. repeat frame1. Qed.
#[export] Instance kp_procs_written c z n : Keeps procs (written c z n).
Proof. intro s. generalize (eq_refl (procs s)). generalize (procs s) at 2 3. intros R HR. unfold written. repeat frame1. Qed.
#[export] Instance kp_seqn_written c z n : Keeps seqn (written c z n).
Proof. intro s. generalize (eq_refl (seqn s)). generalize (seqn s) at 2 3. intros R HR. unfold written. repeat frame1. Qed.
#[export] Instance kp_qdata_written c z n : Keeps qdata (written c z n).
Proof. intro s. generalize (eq_refl (qdata s)). generalize (qdata s) at 2 3. intros R HR. unfold written. repeat frame1. Qed.
#[export] Instance kp_qcmd_written c z n : Keeps qcmd (written c z n).
Proof. intro s. generalize (eq_refl (qcmd s)). generalize (qcmd s) at 2 3. intros R HR. unfold written. repeat frame1. Qed.
#[export] Instance kp_nextc_written c z n : Keeps nextc (written c z n).
Proof. intro s. generalize (eq_refl (nextc s)). generalize (nextc s) at 2 3. intros R HR. unfold written. repeat frame1. Qed.
#[export] Instance kp_es_written c z n : Keeps es (written c z n).
Proof. intro s. generalize (eq_refl (es s)). generalize (es s) at 2 3. intros R HR. unfold written. repeat frame1. Qed.
#[export] Instance kp_nexte_written c z n : Keeps nexte (written c z n).
Proof. intro s. generalize (eq_refl (nexte s)). generalize (nexte s) at 2 3. intros R HR. unfold written. repeat frame1. Qed.
#[export] Instance kp_orc_written c z n : Keeps orc (written c z n).
Proof. intro s. generalize (eq_refl (orc s)). generalize (orc s) at 2 3. intros R HR. unfold written. repeat frame1. Qed.
#[export] Instance kp_salts_written c z n : Keeps salts (written c z n).
Proof. intro s. generalize (eq_refl (salts s)). generalize (salts s) at 2 3. intros R HR. unfold written. repeat frame1. Qed.

#[export] Instance kp_cf_add_endpoint e : Keeps2 cf (add_endpoint e).
Proof. intro s. generalize (eq_refl (cf s)). generalize (cf s) at 2 3. intros R HR. unfold add_endpoint. repeat frame1. Qed.
#[export] Instance kp_self_add_endpoint e : Keeps2 self (add_endpoint e).
Proof. intro s. generalize (eq_refl (self s)). generalize (self s) at 2 3. intros R HR. unfold add_endpoint. repeat frame1. Qed.
#[export] Instance kp_fl_reset_add_endpoint e : Keeps2 fl_reset (add_endpoint e).
Proof. intro s. generalize (eq_refl (fl_reset s)). generalize (fl_reset s) at 2 3. intros R HR. unfold add_endpoint. repeat frame1. Qed.
#[export] Instance kp_fl_gcreset_add_endpoint e : Keeps2 fl_gcreset (add_endpoint e).
Proof. intro s. generalize (eq_refl (fl_gcreset s)). generalize (fl_gcreset s) at 2 3. intros R HR. unfold add_endpoint. repeat frame1. Qed.
#[export] Instance kp_fl_preg_add_endpoint e : Keeps2 fl_preg (add_endpoint e).
Proof. intro s. generalize (eq_refl (fl_preg s)). generalize (fl_preg s) at 2 3. intros R HR. unfold add_endpoint. repeat frame1. Qed.
#[export] Instance kp_fl_shut_add_endpoint e : Keeps2 fl_shut (add_endpoint e).
Proof. intro s. generalize (eq_refl (fl_shut s)). generalize (fl_shut s) at 2 3. intros R HR. unfold add_endpoint. repeat frame1. Qed.
#[export] Instance kp_fl_self_add_endpoint e : Keeps2 fl_self (add_endpoint e).
Proof. intro s. generalize (eq_refl (fl_self s)). generalize (fl_self s) at 2 3. intros R HR. unfold add_endpoint. repeat frame1. Qed.
#[export] Instance kp_fl_gce_add_endpoint e : Keeps2 fl_gce (add_endpoint e).
Proof. intro s. generalize (eq_refl (fl_gce s)). generalize (fl_gce s) at 2 3. intros R HR. unfold add_endpoint. repeat frame1. Qed.
#[export] Instance kp_fl_gcc_add_endpoint e : Keeps2 fl_gcc (add_endpoint e).
Proof. intro s. generalize (eq_refl (fl_gcc s)). generalize (fl_gcc s) at 2 3. intros R HR. unfold add_endpoint. repeat frame1. Qed.
#[export] Instance kp_sec_add_endpoint e : Keeps2 sec (add_endpoint e).
Proof. intro s. generalize (eq_refl (sec s)). generalize (sec s) at 2 3. intros R HR. unfold add_endpoint. repeat frame1. Qed.
#[export] Instance kp_popr_add_endpoint e : Keeps2 popr (add_endpoint e).
Proof. intro s. generalize (eq_refl (popr s)). generalize (popr s) at 2 3. intros R HR. unfold add_endpoint. repeat frame1. Qed.
#[export] Instance kp_connecting_add_endpoint e : Keeps2 connecting (add_endpoint e).
Proof. intro s. generalize (eq_refl (connecting s)). generalize (connecting s) at 2 3. intros R HR. unfold add_endpoint. repeat frame1. Qed.
#[export] Instance kp_pend_add_endpoint e : Keeps2 pend (add_endpoint e).
Proof. intro s. generalize (eq_refl (pend s)). generalize (pend s) at 2 3. intros R HR. unfold add_endpoint. repeat frame1. Qed.
#[export] Instance kp_lpend_add_endpoint e : Keeps2 lpend (add_endpoint e).
Proof. intro s. generalize (eq_refl (lpend s)). generalize (lpend s) at 2 3. intros R HR. unfold add_endpoint. repeat frame1. Qed.
#[export] Instance kp_gce_add_endpoint e : Keeps2 gce (add_endpoint e).
Proof. intro s. generalize (eq_refl (gce s)). generalize (gce s) at 2 3. intros R HR. unfold add_endpoint. repeat frame1. Qed.
#[export] Instance kp_gcc_add_endpoint e : Keeps2 gcc (add_endpoint e).
Proof. intro s. generalize (eq_refl (gcc s)). generalize (gcc s) at 2 3. intros R HR. unfold add_endpoint. repeat frame1. Qed.
#[export] Instance kp_procs_add_endpoint e : Keeps2 procs (add_endpoint e).
Proof. intro s. generalize (eq_refl (procs s)). generalize (procs s) at 2 3. intros R HR. unfold add_endpoint. repeat frame1. Qed.
#[export] Instance kp_seqn_add_endpoint e : Keeps2 seqn (add_endpoint e).
Proof. intro s. generalize (eq_refl (seqn s)). generalize (seqn s) at 2 3. intros R HR. unfold add_endpoint. repeat frame1. Qed.
#[export] Instance kp_qdata_add_endpoint e : Keeps2 qdata (add_endpoint e).
Proof. intro s. generalize (eq_refl (qdata s)). generalize (qdata s) at 2 3. intros R HR. unfold add_endpoint. repeat frame1. Qed.
#[export] Instance kp_qcmd_add_endpoint e : Keeps2 qcmd (add_endpoint e).
Proof. intro s. generalize (eq_refl (qcmd s)). generalize (qcmd s) at 2 3. intros R HR. unfold add_endpoint. repeat frame1. Qed.
#[export] Instance kp_cs_add_endpoint e : Keeps2 cs (add_endpoint e).
Proof. intro s. generalize (eq_refl (cs s)). generalize (cs s) at 2 3. intros R HR. unfold add_endpoint. repeat frame1. Qed.
#[export] Instance kp_nextc_add_endpoint e : Keeps2 nextc (add_endpoint e).
Proof. intro s. generalize (eq_refl (nextc s)). generalize (nextc s) at 2 3. intros R HR. unfold add_endpoint. repeat frame1. Qed.
#[export] Instance kp_nexte_add_endpoint e : Keeps2 nexte (add_endpoint e).
Proof. intro s. generalize (eq_refl (nexte s)). generalize (nexte s) at 2 3. intros R HR. unfold add_endpoint. repeat frame1. Qed.
#[export] Instance kp_orc_add_endpoint e : Keeps2 orc (add_endpoint e).
Proof. intro s. generalize (eq_refl (orc s)). generalize (orc s) at 2 3. intros R HR. unfold add_endpoint. repeat frame1. Qed.
#[export] Instance kp_salts_add_endpoint e : Keeps2 salts (add_endpoint e).
Proof. intro s. generalize (eq_refl (salts s)). generalize (salts s) at 2 3. intros R HR. unfold add_endpoint. repeat frame1. Qed.

#[export] Instance kp_cf_remove_endpoint i x : Keeps2 cf (remove_endpoint i x).
Proof. intro s. generalize (eq_refl (cf s)). generalize (cf s) at 2 3. intros R HR. unfold remove_endpoint. repeat frame1. Qed.
#[export] Instance kp_self_remove_endpoint i x : Keeps2 self (remove_endpoint i x).
Proof. intro s. generalize (eq_refl (self s)). generalize (self s) at 2 3. intros R HR. unfold remove_endpoint. repeat frame1. Qed.
#[export] Instance kp_fl_reset_remove_endpoint i x : Keeps2 fl_reset (remove_endpoint i x).
Proof. intro s. generalize (eq_refl (fl_reset s)). generalize (fl_reset s) at 2 3. intros R HR. unfold remove_endpoint. repeat frame1. Qed.
#[export] Instance kp_fl_gcreset_remove_endpoint i x : Keeps2 fl_gcreset (remove_endpoint i x).
Proof. intro s. generalize (eq_refl (fl_gcreset s)). generalize (fl_gcreset s) at 2 3. intros R HR. unfold remove_endpoint. repeat frame1. Qed.
#[export] Instance kp_fl_act_remove_endpoint i x : Keeps2 fl_act (remove_endpoint i x).
Proof. intro s. generalize (eq_refl (fl_act s)). generalize (fl_act s) at 2 3. intros R HR. unfold remove_endpoint. repeat frame1. Qed.
#[export] Instance kp_fl_preg_remove_endpoint i x : Keeps2 fl_preg (remove_endpoint i x).
Proof. intro s. generalize (eq_refl (fl_preg s)). generalize (fl_preg s) at 2 3. intros R HR. unfold remove_endpoint. repeat frame1. Qed.
#[export] Instance kp_fl_self_remove_endpoint i x : Keeps2 fl_self (remove_endpoint i x).
Proof. intro s. generalize (eq_refl (fl_self s)). generalize (fl_self s) at 2 3. intros R HR. unfold remove_endpoint. repeat frame1. Qed.
#[export] Instance kp_fl_gce_remove_endpoint i x : Keeps2 fl_gce (remove_endpoint i x).
Proof. intro s. generalize (eq_refl (fl_gce s)). generalize (fl_gce s) at 2 3. intros R HR. unfold remove_endpoint. repeat frame1. Qed.
#[export] Instance kp_fl_gcc_remove_endpoint i x : Keeps2 fl_gcc (remove_endpoint i x).
Proof. intro s. generalize (eq_refl (fl_gcc s)). generalize (fl_gcc s) at 2 3. intros R HR. unfold remove_endpoint. repeat frame1. Qed.
#[export] Instance kp_sec_remove_endpoint i x : Keeps2 sec (remove_endpoint i x).
Proof. intro s. generalize (eq_refl (sec s)). generalize (sec s) at 2 3. intros R HR. unfold remove_endpoint. repeat frame1. Qed.
#[export] Instance kp_connecting_remove_endpoint i x : Keeps2 connecting (remove_endpoint i x).
Proof. intro s. generalize (eq_refl (connecting s)). generalize (connecting s) at 2 3. intros R HR. unfold remove_endpoint. repeat frame1. Qed.
#[export] Instance kp_pings_remove_endpoint i x : Keeps2 pings (remove_endpoint i x).
Proof. intro s. generalize (eq_refl (pings s)). generalize (pings s) at 2 3. intros R HR. unfold remove_endpoint. repeat frame1. Qed.
#[export] Instance kp_pend_remove_endpoint i x : Keeps2 pend (remove_endpoint i x).
Proof. intro s. generalize (eq_refl (pend s)). generalize (pend s) at 2 3. intros R HR. unfold remove_endpoint. repeat frame1. Qed.
#[export] Instance kp_lpend_remove_endpoint i x : Keeps2 lpend (remove_endpoint i x).
Proof. intro s. generalize (eq_refl (lpend s)). generalize (lpend s) at 2 3. intros R HR. unfold remove_endpoint. repeat frame1. Qed.
#[export] Instance kp_gce_remove_endpoint i x : Keeps2 gce (remove_endpoint i x).
Proof. intro s. generalize (eq_refl (gce s)). generalize (gce s) at 2 3. intros R HR. unfold remove_endpoint. repeat frame1. Qed.
#[export] Instance kp_gcc_remove_endpoint i x : Keeps2 gcc (remove_endpoint i x).
Proof. intro s. generalize (eq_refl (gcc s)). generalize (gcc s) at 2 3. intros R HR. unfold remove_endpoint. repeat frame1. Qed.
#[export] Instance kp_procs_remove_endpoint i x : Keeps2 procs (remove_endpoint i x).
Proof. intro s. generalize (eq_refl (procs s)). generalize (procs s) at 2 3. intros R HR. unfold remove_endpoint. repeat frame1. Qed.
#[export] Instance kp_seqn_remove_endpoint i x : Keeps2 seqn (remove_endpoint i x).
Proof. intro s. generalize (eq_refl (seqn s)). generalize (seqn s) at 2 3. intros R HR. unfold remove_endpoint. repeat frame1. Qed.
#[export] Instance kp_qdata_remove_endpoint i x : Keeps2 qdata (remove_endpoint i x).
Proof. intro s. generalize (eq_refl (qdata s)). generalize (qdata s) at 2 3. intros R HR. unfold remove_endpoint. repeat frame1. Qed.
#[export] Instance kp_qcmd_remove_endpoint i x : Keeps2 qcmd (remove_endpoint i x).
Proof. intro s. generalize (eq_refl (qcmd s)). generalize (qcmd s) at 2 3. intros R HR. unfold remove_endpoint. repeat frame1. Qed.
#[export] Instance kp_cs_remove_endpoint i x : Keeps2 cs (remove_endpoint i x).
Proof. intro s. generalize (eq_refl (cs s)). generalize (cs s) at 2 3. intros R HR. unfold remove_endpoint. repeat frame1. Qed.
#[export] Instance kp_nextc_remove_endpoint i x : Keeps2 nextc (remove_endpoint i x).
Proof. intro s. generalize (eq_refl (nextc s)). generalize (nextc s) at 2 3. intros R HR. unfold remove_endpoint. repeat frame1. Qed.
#[export] Instance kp_es_remove_endpoint i x : Keeps2 es (remove_endpoint i x).
Proof. intro s. generalize (eq_refl (es s)). generalize (es s) at 2 3. intros R HR. unfold remove_endpoint. repeat frame1. Qed.
#[export] Instance kp_nexte_remove_endpoint i x : Keeps2 nexte (remove_endpoint i x).
Proof. intro s. generalize (eq_refl (nexte s)). generalize (nexte s) at 2 3. intros R HR. unfold remove_endpoint. repeat frame1. Qed.
#[export] Instance kp_orc_remove_endpoint i x : Keeps2 orc (remove_endpoint i x).
Proof. intro s. generalize (eq_refl (orc s)). generalize (orc s) at 2 3. intros R HR. unfold remove_endpoint. repeat frame1. Qed.
#[export] Instance kp_salts_remove_endpoint i x : Keeps2 salts (remove_endpoint i x).
Proof. intro s. generalize (eq_refl (salts s)). generalize (salts s) at 2 3. intros R HR. unfold remove_endpoint. repeat frame1. Qed.

#[export] Instance kp_cf_ep_fault e : Keeps2 cf (ep_fault e).
Proof. intro s. generalize (eq_refl (cf s)). generalize (cf s) at 2 3. intros R HR. unfold ep_fault. repeat frame1. Qed.
#[export] Instance kp_self_ep_fault e : Keeps2 self (ep_fault e).
Proof. intro s. generalize (eq_refl (self s)). generalize (self s) at 2 3. intros R HR. unfold ep_fault. repeat frame1. Qed.
#[export] Instance kp_fl_reset_ep_fault e : Keeps2 fl_reset (ep_fault e).
Proof. intro s. generalize (eq_refl (fl_reset s)). generalize (fl_reset s) at 2 3. intros R HR. unfold ep_fault. repeat frame1. Qed.
#[export] Instance kp_fl_gcreset_ep_fault e : Keeps2 fl_gcreset (ep_fault e).
Proof. intro s. generalize (eq_refl (fl_gcreset s)). generalize (fl_gcreset s) at 2 3. intros R HR. unfold ep_fault. repeat frame1. Qed.
#[export] Instance kp_fl_act_ep_fault e : Keeps2 fl_act (ep_fault e).
Proof. intro s. generalize (eq_refl (fl_act s)). generalize (fl_act s) at 2 3. intros R HR. unfold ep_fault. repeat frame1. Qed.
#[export] Instance kp_fl_preg_ep_fault e : Keeps2 fl_preg (ep_fault e).
Proof. intro s. generalize (eq_refl (fl_preg s)). generalize (fl_preg s) at 2 3. intros R HR. unfold ep_fault. repeat frame1. Qed.
#[export] Instance kp_fl_self_ep_fault e : Keeps2 fl_self (ep_fault e).
Proof. intro s. generalize (eq_refl (fl_self s)). generalize (fl_self s) at 2 3. intros R HR. unfold ep_fault. repeat frame1. Qed.
#[export] Instance kp_fl_gce_ep_fault e : Keeps2 fl_gce (ep_fault e).
Proof. intro s. generalize (eq_refl (fl_gce s)). generalize (fl_gce s) at 2 3. intros R HR. unfold ep_fault. repeat frame1. Qed.
#[export] Instance kp_fl_gcc_ep_fault e : Keeps2 fl_gcc (ep_fault e).
Proof. intro s. generalize (eq_refl (fl_gcc s)). generalize (fl_gcc s) at 2 3. intros R HR. unfold ep_fault. repeat frame1. Qed.
#[export] Instance kp_sec_ep_fault e : Keeps2 sec (ep_fault e).
Proof. intro s. generalize (eq_refl (sec s)). generalize (sec s) at 2 3. intros R HR. unfold ep_fault. repeat frame1. Qed.
#[export] Instance kp_connecting_ep_fault e : Keeps2 connecting (ep_fault e).
Proof. intro s. generalize (eq_refl (connecting s)). generalize (connecting s) at 2 3. intros R HR. unfold ep_fault. repeat frame1. Qed.
#[export] Instance kp_pings_ep_fault e : Keeps2 pings (ep_fault e).
Proof. intro s. generalize (eq_refl (pings s)). generalize (pings s) at 2 3. intros R HR. unfold ep_fault. repeat frame1. Qed.
#[export] Instance kp_pend_ep_fault e : Keeps2 pend (ep_fault e).
Proof. intro s. generalize (eq_refl (pend s)). generalize (pend s) at 2 3. intros R HR. unfold ep_fault. repeat frame1. Qed.
#[export] Instance kp_lpend_ep_fault e : Keeps2 lpend (ep_fault e).
Proof. intro s. generalize (eq_refl (lpend s)). generalize (lpend s) at 2 3. intros R HR. unfold ep_fault. repeat frame1. Qed.
#[export] Instance kp_gce_ep_fault e : Keeps2 gce (ep_fault e).
Proof. intro s. generalize (eq_refl (gce s)). generalize (gce s) at 2 3. intros R HR. unfold ep_fault. repeat frame1. Qed.
#[export] Instance kp_gcc_ep_fault e : Keeps2 gcc (ep_fault e).
Proof. intro s. generalize (eq_refl (gcc s)). generalize (gcc s) at 2 3. intros R HR. unfold ep_fault. repeat frame1. Qed.
#[export] Instance kp_procs_ep_fault e : Keeps2 procs (ep_fault e).
Proof. intro s. generalize (eq_refl (procs s)). generalize (procs s) at 2 3. intros R HR. unfold ep_fault. repeat frame1. Qed.
#[export] Instance kp_seqn_ep_fault e : Keeps2 seqn (ep_fault e).
Proof. intro s. generalize (eq_refl (seqn s)). generalize (seqn s) at 2 3. intros R HR. unfold ep_fault. repeat frame1. Qed.
#[export] Instance kp_qdata_ep_fault e : Keeps2 qdata (ep_fault e).
Proof. intro s. generalize (eq_refl (qdata s)). generalize (qdata s) at 2 3. intros R HR. unfold ep_fault. repeat frame1. Qed.
#[export] Instance kp_qcmd_ep_fault e : Keeps2 qcmd (ep_fault e).
Proof. intro s. generalize (eq_refl (qcmd s)). generalize (qcmd s) at 2 3. intros R HR. unfold ep_fault. repeat frame1. Qed.
#[export] Instance kp_cs_ep_fault e : Keeps2 cs (ep_fault e).
Proof. intro s. generalize (eq_refl (cs s)). generalize (cs s) at 2 3. intros R HR. unfold ep_fault. repeat frame1. Qed.
#[export] Instance kp_nextc_ep_fault e : Keeps2 nextc (ep_fault e).
Proof. intro s. generalize (eq_refl (nextc s)). generalize (nextc s) at 2 3. intros R HR. unfold ep_fault. repeat frame1. Qed.
#[export] Instance kp_nexte_ep_fault e : Keeps2 nexte (ep_fault e).
Proof. intro s. generalize (eq_refl (nexte s)). generalize (nexte s) at 2 3. intros R HR. unfold ep_fault. repeat frame1. Qed.
#[export] Instance kp_orc_ep_fault e : Keeps2 orc (ep_fault e).
Proof. intro s. generalize (eq_refl (orc s)). generalize (orc s) at 2 3. intros R HR. unfold ep_fault. repeat frame1. Qed.
#[export] Instance kp_salts_ep_fault e : Keeps2 salts (ep_fault e).
Proof. intro s. generalize (eq_refl (salts s)). generalize (salts s) at 2 3. intros R HR. unfold ep_fault. repeat frame1. Qed.

#[export] Instance kp_cf_conn_fault c : Keeps cf (conn_fault c).
Proof. intro s. generalize (eq_refl (cf s)). generalize (cf s) at 2 3. intros R HR. unfold conn_fault. repeat frame1. Qed.
#[export] Instance kp_self_conn_fault c : Keeps self (conn_fault c).
Proof. intro s. generalize (eq_refl (self s)). generalize (self s) at 2 3. intros R HR. unfold conn_fault. repeat frame1. Qed.
#[export] Instance kp_parent_conn_fault c : Keeps parent (conn_fault c).
Proof. intro s. generalize (eq_refl (parent s)). generalize (parent s) at 2 3. intros R HR. unfold conn_fault. repeat frame1. Qed.
#[export] Instance kp_routes_conn_fault c : Keeps routes (conn_fault c).
Proof. intro s. generalize (eq_refl (routes s)). generalize (routes s) at 2 3. intros R HR. unfold conn_fault. repeat frame1. Qed.
#[export] Instance kp_fl_reset_conn_fault c : Keeps fl_reset (conn_fault c).
Proof. intro s. generalize (eq_refl (fl_reset s)). generalize (fl_reset s) at 2 3. intros R HR. unfold conn_fault. repeat frame1. Qed.
#[export] Instance kp_fl_gcreset_conn_fault c : Keeps fl_gcreset (conn_fault c).
Proof. intro s. generalize (eq_refl (fl_gcreset s)). generalize (fl_gcreset s) at 2 3. intros R HR. unfold conn_fault. repeat frame1. Qed.
#[export] Instance kp_fl_act_conn_fault c : Keeps fl_act (conn_fault c).
Proof. intro s. generalize (eq_refl (fl_act s)). generalize (fl_act s) at 2 3. intros R HR. unfold conn_fault. repeat frame1. Qed.
#[export] Instance kp_fl_preg_conn_fault c : Keeps fl_preg (conn_fault c).
Proof. intro s. generalize (eq_refl (fl_preg s)). generalize (fl_preg s) at 2 3. intros R HR. unfold conn_fault. repeat frame1. Qed.
#[export] Instance kp_fl_self_conn_fault c : Keeps fl_self (conn_fault c).
Proof. intro s. generalize (eq_refl (fl_self s)). generalize (fl_self s) at 2 3. intros R HR. unfold conn_fault. repeat frame1. Qed.
#[export] Instance kp_fl_gce_conn_fault c : Keeps fl_gce (conn_fault c).
Proof. intro s. generalize (eq_refl (fl_gce s)). generalize (fl_gce s) at 2 3. intros R HR. unfold conn_fault. repeat frame1. Qed.
#[export] Instance kp_fl_gcc_conn_fault c : Keeps fl_gcc (conn_fault c).
Proof. intro s. generalize (eq_refl (fl_gcc s)). generalize (fl_gcc s) at 2 3. intros R HR. unfold conn_fault. repeat frame1. Qed.
#[export] Instance kp_sec_conn_fault c : Keeps sec (conn_fault c).
Proof. intro s. generalize (eq_refl (sec s)). generalize (sec s) at 2 3. intros R HR. unfold conn_fault. repeat frame1. Qed.
#[export] Instance kp_pend_conn_fault c : Keeps pend (conn_fault c).
Proof. intro s. generalize (eq_refl (pend s)). generalize (pend s) at 2 3. intros R HR. unfold conn_fault. repeat frame1. Qed.
#[export] Instance kp_lpend_conn_fault c : Keeps lpend (conn_fault c).
Proof. intro s. generalize (eq_refl (lpend s)). generalize (lpend s) at 2 3. intros R HR. unfold conn_fault. repeat frame1. Qed.
#[export] Instance kp_seqn_conn_fault c : Keeps seqn (conn_fault c).
Proof. intro s. generalize (eq_refl (seqn s)). generalize (seqn s) at 2 3. intros R HR. unfold conn_fault. repeat frame1. Qed.
#[export] Instance kp_qdata_conn_fault c : Keeps qdata (conn_fault c).
Proof. intro s. generalize (eq_refl (qdata s)). generalize (qdata s) at 2 3. intros R HR. unfold conn_fault. repeat frame1. Qed.
#[export] Instance kp_qcmd_conn_fault c : Keeps qcmd (conn_fault c).
Proof. intro s. generalize (eq_refl (qcmd s)). generalize (qcmd s) at 2 3. intros R HR. unfold conn_fault. repeat frame1. Qed.
#[export] Instance kp_nextc_conn_fault c : Keeps nextc (conn_fault c).
Proof. intro s. generalize (eq_refl (nextc s)). generalize (nextc s) at 2 3. intros R HR. unfold conn_fault. repeat frame1. Qed.
#[export] Instance kp_nexte_conn_fault c : Keeps nexte (conn_fault c).
Proof. intro s. generalize (eq_refl (nexte s)). generalize (nexte s) at 2 3. intros R HR. unfold conn_fault. repeat frame1. Qed.
#[export] Instance kp_orc_conn_fault c : Keeps orc (conn_fault c).
Proof. intro s. generalize (eq_refl (orc s)). generalize (orc s) at 2 3. intros R HR. unfold conn_fault. repeat frame1. Qed.
#[export] Instance kp_salts_conn_fault c : Keeps salts (conn_fault c).
Proof. intro s. generalize (eq_refl (salts s)). generalize (salts s) at 2 3. intros R HR. unfold conn_fault. repeat frame1. Qed.

