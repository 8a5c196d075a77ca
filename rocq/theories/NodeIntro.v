(** How a node introduces itself. *)
From Verif Require Import Base Subnet Route Address NodeTypes NodeConn NodeCore NodeMsg Node
  NodeFrame NodeReset NodeInv NodeKeep NodeSteps NodeCtx NodeReach NodeSpec NodeLog NodeTrace NodeHandle ShakeSpec.
Local Open Scope N_scope.
Ltac Zify.zify_post_hook ::= idtac.

Definition is_reg (m : msg) : bool := match m_body m with BReg _ _ => true | _ => false end.
Definition plain (t : tr) : Prop := match t with TSend _ m _ _ => is_reg m = false | _ => True end.
(** What a node with the configuration [x] and the own endpoint [me] may send. *)
Definition Q (x : cfg) (me : option ep) (t : tr) : Prop :=
  match t with
  | TSend _ m _ _ => match m_body m with BReg _ r => exists e, me = Some e /\ introduces x e m r | _ => True end
  | _ => True
  end.
Lemma HQ x me t : plain t -> Q x me t.
Proof. destruct t as [c m n z| | | | | | | | | | | | | | | | | | | | | |]; try (intros _; exact Logic.I). unfold plain, is_reg, Q. now destruct (m_body m). Qed.
Section Intro.
Record ki (s s' : node) : Prop := {
  J_cf : cf s' = cf s; J_self : self s' = self s; J_log : adds (Q (cf s) (self s)) s s' }.
Lemma ki_refl s : ki s s. Proof. constructor; trivial. apply adds_refl. Qed.
Lemma ki_trans s1 s2 s3 : ki s1 s2 -> ki s2 s3 -> ki s1 s3.
Proof. intros [A1 A2 A3] [B1 B2 B3]. constructor; [congruence|congruence|]. rewrite A1, A2 in B3. eapply adds_trans; eauto. Qed.
Lemma ki_intro s s' : cf s' = cf s -> self s' = self s -> log s' = log s -> ki s s'. Proof. intros. constructor; trivial. now apply adds_same. Qed.
Lemma ki_emit t s : plain t -> ki s (emit t s). Proof. intro. constructor; trivial. apply adds_emit. now apply HQ. Qed.
Lemma ki_on_c c f s : ki s (on_c c f s). Proof. now apply ki_intro. Qed.
Lemma ki_on_e e f s : ki s (on_e e f s). Proof. now apply ki_intro. Qed.
Lemma ki_set_cs v s : ki s (set_cs v s). Proof. now apply ki_intro. Qed.
Lemma ki_set_es v s : ki s (set_es v s). Proof. now apply ki_intro. Qed.
Lemma ki_set_nextc v s : ki s (set_nextc v s). Proof. now apply ki_intro. Qed.
Lemma ki_set_nexte v s : ki s (set_nexte v s). Proof. now apply ki_intro. Qed.

Create HintDb ki discriminated.
#[local] Hint Constants Opaque : ki.
#[local] Hint Variables Opaque : ki.
#[local] Hint Resolve ki_emit ki_on_c ki_on_e ki_set_cs ki_set_es ki_set_nextc ki_set_nexte : ki.
#[local] Hint Extern 1 (plain _) => first [exact Logic.I | reflexivity | assumption] : ki.
#[local] Hint Extern 1 (is_reg _ = false) => first [reflexivity | assumption] : ki.
Ltac omvn H v :=
  lazymatch type of H with
  | ki ?s ?s1 => refine (ki_trans s s1 _ H _); clear H; set (v := s1) in *; clearbody v
  end.
Ltac omv H := let v := fresh "s" in omvn H v.
Ltac oleaf := solve [eauto 3 with ki].
Ltac og1 :=
  cbv beta;
  lazymatch goal with
  | |- ki ?s ?s => apply ki_refl
  | |- ki ?s (fst (let x := ?e in @?b x)) => og_let s e ltac:(fun e' => change (ki s (fst (b e'))))
  | |- ki ?s (let x := ?e in @?b x) => og_let s e ltac:(fun e' => change (ki s (b e')))
  | |- ki ?s (fst (fst (let x := ?e in @?b x))) => og_let s e ltac:(fun e' => change (ki s (fst (fst (b e')))))
  | |- ki ?s (fst (fst (fst (let x := ?e in @?b x)))) => og_let s e ltac:(fun e' => change (ki s (fst (fst (fst (b e'))))))
  | |- ki ?s (fst (fst (fst (match ?x with _ => _ end)))) => og_case s x
  | |- ki ?s (fst (fst (match ?x with _ => _ end))) => og_case s x
  | |- ki ?s (fst (match ?x with _ => _ end)) => og_case s x
  | |- ki ?s (match ?x with _ => _ end) => og_case s x
  | |- ki ?s (fst (fst (fst (?x, ?y)))) => change (ki s (fst (fst x)))
  | |- ki ?s (fst (fst (?x, ?y))) => change (ki s (fst x))
  | |- ki ?s (fst (?x, ?y)) => change (ki s x)
  | |- ki ?s (fst (fst (fst (?h ?t)))) => og_at s t
  | |- ki ?s (fst (fst (?h ?t))) => og_at s t
  | |- ki ?s (fst (?h ?t)) => og_at s t
  | |- ki ?s (?g ?t) => og_at s t
  end
with og_at s t :=
  first [ constr_eq s t; oleaf
        | let H := fresh in assert (H : ki s t) by (repeat og1); omv H; oleaf ]
with og_let s e k :=
  lazymatch type of e with
  | node =>
      first [ constr_eq s e; k s; cbv beta
            | let H := fresh in assert (H : ki s e) by (repeat og1); k e; cbv beta; omv H ]
  | _ => let v := fresh in set (v := e); k v; cbv beta; clearbody v
  end
with og_case s x :=
  lazymatch type of x with
  | (node * _)%type =>
      let H := fresh in assert (H : ki s (fst x)) by (repeat og1);
      let E := fresh "E" in destruct x as [? ?] eqn:E; cbn [fst] in H; clear E; omv H
  | (node * _ * _)%type =>
      let H := fresh in assert (H : ki s (fst (fst x))) by (repeat og1);
      let E := fresh "E" in destruct x as [[? ?] ?] eqn:E; cbn [fst] in H; clear E; omv H
  | (node * _ * _ * _)%type =>
      let H := fresh in assert (H : ki s (fst (fst (fst x)))) by (repeat og1);
      let E := fresh "E" in destruct x as [[[? ?] ?] ?] eqn:E; cbn [fst] in H; clear E; omv H
  | _ => let E := fresh "E" in destruct x eqn:E in |- *
  end.
Ltac ogo := repeat og1.
Ltac oframe := intros; apply ki_intro; first [reflexivity | fr1].
Lemma ki_set_nst v s : ki s (set_nst v s). Proof. now apply ki_intro. Qed.
#[local] Hint Resolve ki_set_nst : ki.
Lemma ki_set_parent v s : ki s (set_parent v s). Proof. now apply ki_intro. Qed.
#[local] Hint Resolve ki_set_parent : ki.
Lemma ki_set_routes v s : ki s (set_routes v s). Proof. now apply ki_intro. Qed.
#[local] Hint Resolve ki_set_routes : ki.
Lemma ki_set_fl_self v s : ki s (set_fl_self v s). Proof. now apply ki_intro. Qed.
#[local] Hint Resolve ki_set_fl_self : ki.
Lemma ki_set_fl_gce v s : ki s (set_fl_gce v s). Proof. now apply ki_intro. Qed.
#[local] Hint Resolve ki_set_fl_gce : ki.
Lemma ki_set_fl_gcc v s : ki s (set_fl_gcc v s). Proof. now apply ki_intro. Qed.
#[local] Hint Resolve ki_set_fl_gcc : ki.
Lemma ki_set_fl_gcreset v s : ki s (set_fl_gcreset v s). Proof. now apply ki_intro. Qed.
#[local] Hint Resolve ki_set_fl_gcreset : ki.
Lemma ki_fold {A} (f : node -> A -> node) : (forall s x, ki s (f s x)) -> forall l s, ki s (fold_left f l s).
Proof. intros F l. induction l as [|x r IH]; intro s; cbn [fold_left]; [apply ki_refl|]. eapply ki_trans; [apply F|apply IH]. Qed.
Lemma ki_set_connecting v s : ki s (set_connecting v s). Proof. now apply ki_intro. Qed.
#[local] Hint Resolve ki_set_connecting : ki.
Lemma ki_set_pings v s : ki s (set_pings v s). Proof. now apply ki_intro. Qed.
#[local] Hint Resolve ki_set_pings : ki.
Lemma ki_set_pend v s : ki s (set_pend v s). Proof. now apply ki_intro. Qed.
#[local] Hint Resolve ki_set_pend : ki.
Lemma ki_set_lpend v s : ki s (set_lpend v s). Proof. now apply ki_intro. Qed.
#[local] Hint Resolve ki_set_lpend : ki.
Lemma ki_set_gce v s : ki s (set_gce v s). Proof. now apply ki_intro. Qed.
#[local] Hint Resolve ki_set_gce : ki.
Lemma ki_set_gcc v s : ki s (set_gcc v s). Proof. now apply ki_intro. Qed.
#[local] Hint Resolve ki_set_gcc : ki.
Lemma ki_set_procs v s : ki s (set_procs v s). Proof. now apply ki_intro. Qed.
#[local] Hint Resolve ki_set_procs : ki.
Lemma ki_set_seqn v s : ki s (set_seqn v s). Proof. now apply ki_intro. Qed.
#[local] Hint Resolve ki_set_seqn : ki.
Lemma ki_set_qdata v s : ki s (set_qdata v s). Proof. now apply ki_intro. Qed.
#[local] Hint Resolve ki_set_qdata : ki.
Lemma ki_set_qcmd v s : ki s (set_qcmd v s). Proof. now apply ki_intro. Qed.
#[local] Hint Resolve ki_set_qcmd : ki.
Lemma ki_set_orc v s : ki s (set_orc v s). Proof. now apply ki_intro. Qed.
#[local] Hint Resolve ki_set_orc : ki.
Lemma ki_set_salts v s : ki s (set_salts v s). Proof. now apply ki_intro. Qed.
#[local] Hint Resolve ki_set_salts : ki.
Lemma ki_set_fl_act v s : ki s (set_fl_act v s). Proof. now apply ki_intro. Qed.
#[local] Hint Resolve ki_set_fl_act : ki.
Lemma ki_set_fl_shut v s : ki s (set_fl_shut v s). Proof. now apply ki_intro. Qed.
#[local] Hint Resolve ki_set_fl_shut : ki.
Lemma ki_set_fl_preg v s : ki s (set_fl_preg v s). Proof. now apply ki_intro. Qed.
#[local] Hint Resolve ki_set_fl_preg : ki.
Lemma ki_set_fl_reset v s : ki s (set_fl_reset v s). Proof. now apply ki_intro. Qed.
#[local] Hint Resolve ki_set_fl_reset : ki.
Lemma ki_set_sec v s : ki s (set_sec v s). Proof. now apply ki_intro. Qed.
#[local] Hint Resolve ki_set_sec : ki.
Lemma ki_rm_timer c s : ki s (rm_timer c s). Proof. unfold rm_timer. ogo. Qed.
#[local] Hint Resolve ki_rm_timer : ki.
Lemma ki_set_status c v s : ki s (set_status c v s). Proof. unfold set_status. ogo. Qed.
#[local] Hint Resolve ki_set_status : ki.
Lemma ki_on_actived s : ki s (on_actived s). Proof. unfold on_actived. ogo. Qed.
#[local] Hint Resolve ki_on_actived : ki.
Lemma ki_shutdown z s : ki s (shutdown z s). Proof. unfold shutdown. ogo. Qed.
#[local] Hint Resolve ki_shutdown : ki.
Lemma ki_fatal_shutdown z s : ki s (fatal_shutdown z s). Proof. apply ki_shutdown. Qed.
#[local] Hint Resolve ki_fatal_shutdown : ki.
Lemma ki_set_popr v s : ki s (set_popr v s). Proof. now apply ki_intro. Qed.
#[local] Hint Resolve ki_set_popr : ki.
Lemma ki_on_disconnect c s : ki s (on_disconnect c s). Proof. unfold on_disconnect. ogo. Qed.
#[local] Hint Resolve ki_on_disconnect : ki.
Lemma ki_rm_proc a s : ki s (rm_proc a s). Proof. unfold rm_proc. ogo. Qed.
#[local] Hint Resolve ki_rm_proc : ki.
Lemma ki_add_proc c s : ki s (add_proc c s). Proof. unfold add_proc. ogo. Qed.
#[local] Hint Resolve ki_add_proc : ki.
Lemma ki_add_timer c s : ki s (add_timer c s). Proof. unfold add_timer. ogo. Qed.
#[local] Hint Resolve ki_add_timer : ki.
Lemma ki_gc_conn c s : ki s (gc_conn c s). Proof. unfold gc_conn. ogo. Qed.
#[local] Hint Resolve ki_gc_conn : ki.
Lemma ki_gc_ep e s : ki s (gc_ep e s). Proof. unfold gc_ep. ogo. Qed.
#[local] Hint Resolve ki_gc_ep : ki.
Lemma ki_clear_ping e s : ki s (clear_ping e s). Proof. unfold clear_ping. ogo. Qed.
#[local] Hint Resolve ki_clear_ping : ki.
Lemma ki_insert_ping e s : ki s (insert_ping e s). Proof. unfold insert_ping. ogo. Qed.
#[local] Hint Resolve ki_insert_ping : ki.
Lemma ki_add_ping e s : ki s (add_ping e s). Proof. unfold add_ping. ogo. Qed.
#[local] Hint Resolve ki_add_ping : ki.
Lemma ki_disconnect c s : ki s (disconnect c s). Proof. unfold disconnect. ogo. Qed.
#[local] Hint Resolve ki_disconnect : ki.
Lemma ki_conn_close c s : ki s (conn_close c s). Proof. unfold conn_close. ogo. Qed.
#[local] Hint Resolve ki_conn_close : ki.
Lemma ki_conn_fin c s : ki s (conn_fin c s). Proof. unfold conn_fin. ogo. Qed.
#[local] Hint Resolve ki_conn_fin : ki.
Lemma ki_conn_reset_in c s : ki s (conn_reset_in c s). Proof. unfold conn_reset_in. ogo. Qed.
#[local] Hint Resolve ki_conn_reset_in : ki.
Lemma ki_resets l s : ki s (fold_left (fun s c => conn_reset_in c s) l s). Proof. apply ki_fold. intros. apply ki_conn_reset_in. Qed.
#[local] Hint Resolve ki_resets : ki.
Lemma ki_ep_reset b g e s : ki s (ep_reset b g e s). Proof. unfold ep_reset. ogo. Qed.
#[local] Hint Resolve ki_ep_reset : ki.
Lemma ki_conn_reset c s : ki s (conn_reset c s). Proof. unfold conn_reset. ogo. Qed.
#[local] Hint Resolve ki_conn_reset : ki.
Lemma ki_ep_drop e s : ki s (ep_drop e s). Proof. unfold ep_drop. ogo. Qed.
#[local] Hint Resolve ki_ep_drop : ki.
Lemma ki_conn_drop c s : ki s (conn_drop c s). Proof. unfold conn_drop. ogo. Qed.
#[local] Hint Resolve ki_conn_drop : ki.
Lemma ki_conn_fault c s : ki s (conn_fault c s). Proof. unfold conn_fault. ogo. Qed.
#[local] Hint Resolve ki_conn_fault : ki.
Lemma ki_add_endpoint e s : ki s (fst (add_endpoint e s)). Proof. unfold add_endpoint. ogo. Qed.
#[local] Hint Resolve ki_add_endpoint : ki.
Lemma ki_remove_endpoint i x s : ki s (fst (remove_endpoint i x s)). Proof. unfold remove_endpoint. ogo. Qed.
#[local] Hint Resolve ki_remove_endpoint : ki.
Lemma ki_ep_fault e s : ki s (fst (ep_fault e s)). Proof. unfold ep_fault. ogo. Qed.
#[local] Hint Resolve ki_ep_fault : ki.
Lemma ki_add_listen e a s : ki s (add_listen e a s). Proof. unfold add_listen. ogo. Qed.
#[local] Hint Resolve ki_add_listen : ki.
Lemma ki_written c z n s : ki s (written c z n s). Proof. unfold written. ogo. Qed.
#[local] Hint Resolve ki_written : ki.
Lemma ki_conn_create s : ki s (fst (conn_create s)). Proof. unfold conn_create. ogo. Qed.
#[local] Hint Resolve ki_conn_create : ki.
Lemma ki_ep_create i u p h s : ki s (fst (ep_create i u p h s)). Proof. unfold ep_create. ogo. Qed.
#[local] Hint Resolve ki_ep_create : ki.
Lemma ki_add_connection e c b s : ki s (fst (add_connection e c b s)). Proof. unfold add_connection. ogo. Qed.
#[local] Hint Resolve ki_add_connection : ki.
Lemma ki_created e s : ki s (fst (created e s)). Proof. unfold created. ogo. Qed.
#[local] Hint Resolve ki_created : ki.
Lemma ki_alloc_seq  s : ki s (fst (alloc_seq  s)). Proof. unfold alloc_seq. ogo. Qed.
#[local] Hint Resolve ki_alloc_seq : ki.
Lemma ki_take_orc  s : ki s (fst (take_orc  s)). Proof. unfold take_orc. ogo. Qed.
#[local] Hint Resolve ki_take_orc : ki.
Lemma ki_take_salt  s : ki s (fst (take_salt  s)). Proof. unfold take_salt. ogo. Qed.
#[local] Hint Resolve ki_take_salt : ki.
Lemma ki_push c m s : is_reg m = false -> ki s (fst (push c m s)). Proof. intro H. unfold push. ogo. Qed.
#[local] Hint Resolve ki_push : ki.
Lemma ki_send_on c m s : is_reg m = false -> ki s (fst (send_on c m s)). Proof. intro H. unfold send_on. ogo. Qed.
#[local] Hint Resolve ki_send_on : ki.

Lemma ki_gen_keys ts : forall s, ki s (fst (gen_keys ts s)).
Proof. induction ts as [|t r IH]; intro s; cbn [gen_keys]; ogo. Qed.
#[local] Hint Resolve ki_gen_keys : ki.
Lemma gen_keys_made x ts : forall s, cf s = x ->
  Forall2 (fun t k => x_mac x t (y_salt k) = (y_h1 k, y_h2 k)) ts (snd (gen_keys ts s)).
Proof.
  induction ts as [|t r IH]; intros s E; cbn [gen_keys]; [constructor|]. pose proof (ki_take_salt s) as K.
  destruct (take_salt s) as [s1 salt]. cbn [fst] in K. pose proof (J_cf _ _ K) as E1. rewrite E in E1. rewrite E1.
  destruct (x_mac x t salt) as [a b] eqn:M. specialize (IH s1 E1). destruct (gen_keys r s1) as [s2 ks]. cbn [snd] in *.
  constructor; [exact M|exact IH].
Qed.
Definition sends (s : node) (m : msg) : Prop := forall c n z, Q (cf s) (self s) (TSend c m n z).
Lemma ki_push_reg c m s : sends s m -> ki s (fst (push c m s)).
Proof.
  intro H. unfold push. cbv zeta. set (s1 := on_c c _ s). assert (K : ki s s1) by (subst s1; ogo).
  assert (P : forall n z, ki s1 (emit (TSend c m n z) (fst (take_orc s1)))).
  { intros n z. pose proof (ki_take_orc s1) as T. eapply ki_trans; [exact T|]. constructor; trivial. apply adds_emit.
    rewrite (J_cf _ _ T), (J_self _ _ T), (J_cf _ _ K), (J_self _ _ K). apply H. }
  clearbody s1. eapply ki_trans; [exact K|]. clear K.
  destruct (k_st (cs s1 c)); try solve [ogo]; (destruct (k_kind (cs s1 c)); try solve [ogo]; destruct (take_orc s1) as [s2 r]; cbn [fst] in P |- *;
    (eapply ki_trans; [apply (P (x_size (cf s) m) r)|]); ogo).
Qed.
Lemma ki_send_reg rsp c z q s : ki s (fst (send_reg rsp c z q s)).
Proof.
  unfold send_reg. destruct (self s) as [me|] eqn:S; [|apply ki_refl].
  pose proof (ki_gen_keys (x_tokens (cf s)) s) as K. pose proof (gen_keys_made (cf s) (x_tokens (cf s)) s eq_refl) as M.
  destruct (gen_keys (x_tokens (cf s)) s) as [s1 ks]. cbn [fst snd] in *. eapply ki_trans; [exact K|]. unfold send_on.
  destruct (_ <? _); [apply ki_refl|]. apply ki_push_reg. intros c' n' z'. cbn [Q m_body]. exists me.
  rewrite (J_self _ _ K), (J_cf _ _ K). split; [exact S|]. assert (E : my_id s1 = e_id me) by (unfold my_id; now rewrite (J_self _ _ K), S).
  constructor; cbn [m_head h_ver h_src r_id r_pid r_host r_nets r_keys]; trivial.
  unfold announce. rewrite map_map. reflexivity.
Qed.
#[local] Hint Resolve ki_send_reg : ki.
Lemma ki_send_ping c q s : ki s (fst (send_ping c q s)). Proof. unfold send_ping. ogo. Qed.
#[local] Hint Resolve ki_send_ping : ki.
Lemma ki_on_new_connection c s : ki s (on_new_connection c s). Proof. unfold on_new_connection. ogo. Qed.
#[local] Hint Resolve ki_on_new_connection : ki.
Lemma ki_number m s : ki s (fst (number m s)). Proof. unfold number. ogo. Qed.
Lemma reg_number m s : is_reg (snd (number m s)) = is_reg m. Proof. unfold number. now destruct (_ =? 0). Qed.
#[local] Hint Resolve ki_number : ki.
Lemma ki_post d i m s : is_reg m = false -> ki s (fst (post d i m s)).
Proof.
  intro H. unfold post. pose proof (ki_number m s) as K. pose proof (reg_number m s) as E. rewrite H in E.
  destruct (number m s) as [s1 m1]. cbn [fst snd] in *.
  destruct (nst s); try apply ki_refl; (destruct (_ =? _);
    [omvn K s2; ogo|destruct (remote d s i) as [[r oe] oc]; destruct (r <? 0)%Z; [apply ki_refl|]; destruct oc; [|apply ki_refl]; omvn K s2; ogo]).
Qed.
#[local] Hint Resolve ki_post : ki.
Lemma ki_send_cmd_rsp oc d t z q f s : ki s (fst (send_cmd_rsp oc d t z q f s)). Proof. unfold send_cmd_rsp. ogo. Qed.
#[local] Hint Resolve ki_send_cmd_rsp : ki.
Lemma ki_cmd_req oc h q s : ki s (fst (cmd_req oc h q s)). Proof. unfold cmd_req. ogo. Qed.
#[local] Hint Resolve ki_cmd_req : ki.
Lemma ki_cmd_rsp oc h q s : ki s (fst (cmd_rsp oc h q s)). Proof. unfold cmd_rsp. ogo. Qed.
#[local] Hint Resolve ki_cmd_rsp : ki.
Lemma ki_self_data m s : ki s (self_data m s). Proof. unfold self_data. ogo. Qed.
#[local] Hint Resolve ki_self_data : ki.
Lemma ki_self_cmd m s : ki s (self_cmd m s). Proof. unfold self_cmd. ogo. Qed.
#[local] Hint Resolve ki_self_cmd : ki.
Lemma ki_data_loop n : forall s, ki s (fst (fst (self_data_loop n s))).
Proof. induction n as [|n IH]; intro s; cbn [self_data_loop]; ogo. Qed.
Lemma ki_cmd_loop n : forall s, ki s (fst (self_cmd_loop n s)).
Proof. induction n as [|n IH]; intro s; cbn [self_cmd_loop]; ogo. Qed.
#[local] Hint Resolve ki_data_loop ki_cmd_loop : ki.
Lemma ki_dispatch_self s : ki s (fst (dispatch_self s)).
Proof. unfold dispatch_self. ogo. Qed.
#[local] Hint Resolve ki_dispatch_self : ki.
Lemma ki_send_to d i m s : is_reg m = false -> ki s (fst (send_to d i m s)). Proof. intro H. unfold send_to. ogo. Qed.
#[local] Hint Resolve ki_send_to : ki.
Lemma ki_conn_connect c a s : ki s (fst (conn_connect c a s)). Proof. unfold conn_connect. ogo. Qed.
#[local] Hint Resolve ki_conn_connect : ki.
Lemma ki_connect a s : ki s (fst (connect a s)). Proof. unfold connect. ogo. Qed.
#[local] Hint Resolve ki_connect : ki.
Lemma ki_connect_ep a e s : ki s (fst (connect_ep a e s)). Proof. unfold connect_ep. ogo. Qed.
#[local] Hint Resolve ki_connect_ep : ki.
Lemma ki_listen_cb c z s : ki s (listen_cb c z s). Proof. unfold listen_cb. ogo. Qed.
#[local] Hint Resolve ki_listen_cb : ki.
Lemma ki_conn_listen c a s : ki s (fst (conn_listen c a s)). Proof. unfold conn_listen. ogo. Qed.
#[local] Hint Resolve ki_conn_listen : ki.
Lemma ki_listen a s : ki s (fst (listen a s)). Proof. unfold listen. ogo. Qed.
#[local] Hint Resolve ki_listen : ki.
Lemma ki_connected_cb c z s : ki s (connected_cb c z s). Proof. unfold connected_cb. ogo. Qed.
#[local] Hint Resolve ki_connected_cb : ki.
Lemma ki_listened c z s : ki s (listened c z s). Proof. unfold listened. ogo. Qed.
#[local] Hint Resolve ki_listened : ki.
Lemma ki_accept_failed s : ki s (accept_failed s). Proof. unfold accept_failed. ogo. Qed.
#[local] Hint Resolve ki_accept_failed : ki.
Lemma ki_accepted a s : ki s (accepted a s). Proof. unfold accepted. ogo. Qed.
#[local] Hint Resolve ki_accepted : ki.
Lemma ki_peer_closed c s : ki s (peer_closed c s). Proof. unfold peer_closed. ogo. Qed.
#[local] Hint Resolve ki_peer_closed : ki.
Lemma ki_node_disconnect i s : ki s (fst (node_disconnect i s)). Proof. unfold node_disconnect. ogo. Qed.
#[local] Hint Resolve ki_node_disconnect : ki.
Lemma ki_transfer_rsp h w z s : ki s (fst (transfer_rsp h w z s)). Proof. unfold transfer_rsp. ogo. Qed.
#[local] Hint Resolve ki_transfer_rsp : ki.
Lemma ki_forward r h w f t s : ki s (fst (fst (fst (forward r h w f t s)))). Proof. unfold forward. ogo. Qed.
#[local] Hint Resolve ki_forward : ki.
Lemma ki_data_rsp c h w s : ki s (fst (data_rsp c h w s)). Proof. unfold data_rsp. ogo. Qed.
#[local] Hint Resolve ki_data_rsp : ki.
Lemma ki_sync_msg r c h s : ki s (fst (sync_msg r c h s)). Proof. unfold sync_msg. ogo. Qed.
#[local] Hint Resolve ki_sync_msg : ki.
Lemma ki_reg_deny c z q s : ki s (fst (reg_deny c z q s)). Proof. unfold reg_deny. ogo. Qed.
#[local] Hint Resolve ki_reg_deny : ki.
Lemma ki_ping_msg c h t s : ki s (fst (ping_msg c h t s)). Proof. unfold ping_msg. ogo. Qed.
#[local] Hint Resolve ki_ping_msg : ki.
Lemma ki_pong_msg c h t s : ki s (fst (pong_msg c h t s)). Proof. unfold pong_msg. ogo. Qed.
#[local] Hint Resolve ki_pong_msg : ki.
Lemma ki_fault_of c s : ki s (fault_of c s). Proof. unfold fault_of. ogo. Qed.
#[local] Hint Resolve ki_fault_of : ki.
Lemma ki_sweep n now : forall s, ki s (sweep n now s).
Proof. induction n as [|n IH]; intro s; cbn [sweep]; ogo. Qed.
#[local] Hint Resolve ki_sweep : ki.
Lemma ki_fault_drop h e s : ki s (fst (fault_drop h e s)). Proof. unfold fault_drop. ogo. Qed.
#[local] Hint Resolve ki_fault_drop : ki.
Lemma ki_ping_endpoint h e s : ki s (fst (ping_endpoint h e s)). Proof. unfold ping_endpoint. ogo. Qed.
#[local] Hint Resolve ki_ping_endpoint : ki.
Lemma ki_idle_out n e s : ki s (fst (idle_out n e s)). Proof. unfold idle_out. ogo. Qed.
#[local] Hint Resolve ki_idle_out : ki.
Lemma ki_release nx s : ki s (release nx s). Proof. unfold release. ogo. Qed.
#[local] Hint Resolve ki_release : ki.
Lemma ki_ping_loop now n : forall nx s s', ping_loop n now nx s = Some s' -> ki s s'.
Proof.
  induction n as [|n IH]; intros nx s s' X; cbn [ping_loop] in X; [discriminate|].
  destruct (pings s) as [|[t e0] l]; [injection X as <-; apply ki_release|].
  destruct (now <? t); [injection X as <-; apply ki_release|]. cbv zeta in X.
  set (e := match nx with Some e => e | None => e0 end) in X.
  pose proof (ki_idle_out now e s) as K. destruct (idle_out now e s) as [s1 out]. cbn [fst] in K. omvn K s2.
  destruct out.
  - apply IH in X. refine (ki_trans _ _ _ _ X). ogo.
  - set (s3 := if match parent s2 with Some p => e_ref p =? e | None => false end then s2 else fst (ping_endpoint true e s2)) in X.
    assert (K : ki s2 s3) by (unfold s3; destruct (match parent s2 with Some p => _ | None => _ end); ogo).
    clearbody s3. omvn K s5.
    set (s4 := add_ping (d_ep (es s5 e)) s5) in X.
    assert (K : ki s5 s4) by (unfold s4; ogo). clearbody s4. omvn K s6.
    destruct (pings s6) as [|[t2 e2] r]; [injection X as <-; ogo|].
    destruct (now <? t2); [injection X as <-; ogo|].
    destruct (negb (t2 =? t)); [|destruct (e2 =? e)]; apply IH in X; refine (ki_trans _ _ _ _ X); ogo.
Qed.
Lemma ki_gc_one s x : ki s (gc_one s x).
Proof. unfold gc_one. ogo. Qed.
Lemma ki_drop_ep s e : ki s (drop_ep s e). Proof. apply ki_ep_drop. Qed.
Lemma ki_gcs l s : ki s (fold_left gc_one l s). Proof. apply ki_fold. intros. apply ki_gc_one. Qed.
Lemma ki_drops l s : ki s (fold_left drop_ep l s). Proof. apply ki_fold. intros. apply ki_drop_ep. Qed.
Lemma ki_cdrops l s : ki s (fold_left (fun s c => conn_drop c s) l s). Proof. apply ki_fold. intros. apply ki_conn_drop. Qed.
#[local] Hint Resolve ki_gcs ki_drops ki_cdrops : ki.
Lemma ki_collect s : ki s (collect s).
Proof. unfold collect. ogo. Qed.
#[local] Hint Resolve ki_collect : ki.
Lemma ki_send_data a b c d e s : ki s (fst (send_data a b c d e s)). Proof. unfold send_data. ogo. Qed.
#[local] Hint Resolve ki_send_data : ki.
Lemma ki_send_custom a b c s : ki s (fst (send_custom a b c s)). Proof. unfold send_custom. ogo. Qed.
#[local] Hint Resolve ki_send_custom : ki.
Lemma ki_connecting m : forall s, ki s (drop_connecting m s).
Proof. induction m as [|m IH]; intro s; cbn [drop_connecting]; [apply ki_refl|]. ogo. Qed.
#[local] Hint Resolve ki_connecting : ki.
Lemma ki_finish_connects l : forall s, ki s (finish_connects l s).
Proof. induction l as [|c r IH]; intro s; cbn [finish_connects]; ogo. Qed.
#[local] Hint Resolve ki_finish_connects : ki.
Lemma ki_finish_listens l : forall s, ki s (finish_listens l s).
Proof. induction l as [|c r IH]; intro s; cbn [finish_listens]; ogo. Qed.
#[local] Hint Resolve ki_finish_listens : ki.
Lemma ki_drain m : forall s, ki s (drain m s).
Proof. induction m as [|m IH]; intro s; cbn [drain]; ogo. Qed.
#[local] Hint Resolve ki_drain : ki.
Lemma ki_presets l s : ki s (fold_left (fun s (p : bytes * N) => conn_reset (snd p) s) l s).
Proof. apply (ki_fold (fun s (p : bytes * N) => conn_reset (snd p) s)). intros. apply ki_conn_reset. Qed.
Lemma ki_removals l s : ki s (fold_left (fun s e => emit (TRemoved e) s) l s).
Proof. apply ki_fold. intros. now apply ki_emit. Qed.
Lemma ki_unpings l s : ki s (fold_left (fun s (p : N * N) => clear_ping (snd p) (ep_reset None false (snd p) s)) l s).
Proof. apply ki_fold. intros. ogo. Qed.
#[local] Hint Resolve ki_presets ki_removals ki_unpings : ki.
Lemma ki_reset s : ki s (reset s). Proof. unfold reset. ogo. Qed.
#[local] Hint Resolve ki_reset : ki.
Lemma ki_stop_if_shut s : ki s (stop_if_shut s). Proof. unfold stop_if_shut. ogo. Qed.
#[local] Hint Resolve ki_stop_if_shut : ki.

Lemma ki_open_channels e can l : forall has s, ki s (fst (open_channels e can l has s)).
Proof. induction l as [|x r IH]; intros has s; cbn [open_channels]; ogo. Qed.
#[local] Hint Resolve ki_open_channels : ki.
Lemma ki_welcome c e r s : ki s (welcome c e r s). Proof. unfold welcome. ogo. Qed.
#[local] Hint Resolve ki_welcome : ki.
Lemma ki_reg_body c r s : ki s (fst (reg_body c r s)). Proof. unfold reg_body. ogo. Qed.
#[local] Hint Resolve ki_reg_body : ki.
Lemma ki_reg_req c h r s : ki s (fst (reg_req c h r s)). Proof. unfold reg_req. ogo. Qed.
#[local] Hint Resolve ki_reg_req : ki.
Lemma ki_reg_rsp c h r s : ki s (fst (reg_rsp c h r s)).
Proof. unfold reg_rsp, parent_reg_done. ogo. Qed.
#[local] Hint Resolve ki_reg_rsp : ki.
Lemma ki_conn_syn c h a s : ki s (fst (conn_syn c h a s)). Proof. unfold conn_syn. ogo. Qed.
#[local] Hint Resolve ki_conn_syn : ki.

Lemma ki_connect_sync x y s : ki s (fst (connect_sync x y s)). Proof. unfold connect_sync. ogo. Qed.
#[local] Hint Resolve ki_connect_sync : ki.
Lemma ki_data_req c h w s : ki s (fst (data_req c h w s)). Proof. unfold data_req. ogo. Qed.
#[local] Hint Resolve ki_data_req : ki.
Lemma ki_dispatch_msg c m s : ki s (fst (dispatch_msg c m s)).
Proof. unfold dispatch_msg. ogo. Qed.
#[local] Hint Resolve ki_dispatch_msg : ki.
Lemma ki_on_recv c m s : ki s (on_recv c m s). Proof. unfold on_recv. ogo. Qed.
#[local] Hint Resolve ki_on_recv : ki.
Lemma ki_recv_item c i s : ki s (recv_item c i s).
Proof. unfold recv_item. destruct i as [z|k|k m]; ogo. Qed.
#[local] Hint Resolve ki_recv_item : ki.
Lemma ki_io_step i s : ki s (io_step i s). Proof. unfold io_step. ogo. Qed.
#[local] Hint Resolve ki_io_step : ki.
Lemma ki_ios l s : ki s (fold_left (fun s i => io_step i s) l s). Proof. apply ki_fold. intros. apply ki_io_step. Qed.
Lemma ki_proc_items m c : forall l s, ki s (proc_items m c l s).
Proof. induction m as [|m IH]; intros l s; cbn [proc_items]; [apply ki_refl|]. destruct (k_kind _); try apply ki_recv_item. destruct l as [|i r]; [apply ki_refl|]. destruct i; ogo. Qed.
#[local] Hint Resolve ki_ios ki_proc_items : ki.
Lemma ki_proc_one s p : ki s (proc_one s p). Proof. unfold proc_one. ogo. Qed.
Lemma ki_procs l s : ki s (fold_left proc_one l s). Proof. apply ki_fold. intros. apply ki_proc_one. Qed.
#[local] Hint Resolve ki_procs : ki.
Lemma ki_parent_op now s : ki s (parent_op now s). Proof. unfold parent_op. ogo. Qed.
#[local] Hint Resolve ki_parent_op : ki.
Lemma ki_start now s : ki s (fst (start now s)). Proof. unfold start. ogo. Qed.
Lemma ki_poll l s : ki s (poll l s). Proof. unfold poll. ogo. Qed.
Lemma ki_proc k now feed s s' : proc k now feed s = Some s' -> ki s s'.
Proof.
  unfold proc. cbv zeta. set (s1 := if sec s <? now then set_sec now s else s).
  assert (K : ki s s1) by (subst s1; ogo). intro X.
  refine (ki_trans _ _ _ K _). clearbody s1. clear K. rename s1 into s2. revert X.
  set (s3 := parent_op now _). assert (K : ki s2 s3) by (subst s3; ogo). clearbody s3.
  assert (Y : forall s5, ping_loop k now None s3 = Some s5 -> ki s2 (stop_if_shut (collect (fst (dispatch_self s5))))).
  { intros s5 E. apply ki_ping_loop in E. omvn K s4. omvn E s6. ogo. }
  assert (Z : ki s2 (reset (fst (dispatch_self s2)))) by ogo.
  destruct (nst s2); [intros [= <-]; apply ki_refl|..];
    (destruct (fl_shut s2); [intros [= <-]; exact Z|]; destruct (ping_loop k now None s3) as [s5|]; [|discriminate]; intros [= <-]; auto).
Qed.
Lemma intro_init i x s : adds (Q (cf s) (self s)) s (fst (init i x s)).
Proof.
  unfold init. set (s1 := match nst s with NCreated => s | _ => reset s end).
  assert (K : ki s s1) by (unfold s1; destruct (nst s); ogo). cbv zeta. apply J_log in K. clearbody s1. eapply adds_trans; [exact K|].
  destruct (endpoint_subnets i (x_nets x)) as [subs|]; [|apply (adds_emit _ (TUb UShift) (set_cf x s1)); exact Logic.I].
  assert (SF : forall s2 s3 : node, soft s2 s3 -> adds (Q (cf s) (self s)) s2 s3).
  { intros s2 s3 [(l & E & F) _]. exists l. split; [exact E|]. eapply Forall_impl; [|exact F]. intros []; cbn; trivial; discriminate. }
  assert (E : log (fst (ep_create i subs (x_pid x) (x_host x) (set_cf x s1))) = log s1).
  { unfold ep_create. cbn [fst]. rewrite (keeps (f := log) (g := insert_ping _)). reflexivity. }
  destruct (ep_create _ _ _ _ _) as [s2 e]. cbn [fst] in E. cbv zeta. set (s3 := match self (set_cf x s1) with Some o => _ | None => _ end).
  assert (B : adds (Q (cf s) (self s)) s1 s3).
  { eapply adds_trans; [apply (adds_same _ s1 (set_self (Some e) s2)); exact E|]. subst s3. destruct (self (set_cf x s1)) as [o|]; [|apply adds_refl].
    unfold ep_drop. destruct (ep_held _ _); [apply adds_refl|]. apply SF, soft_ep_reset. }
  eapply adds_trans; [exact B|]. clearbody s3. cbn [fst]. eapply adds_trans; [apply SF, (soft_clear_ping (e_ref e))|]. now apply adds_same.
Qed.
Lemma ki_step k ev s s' : step k ev s = Some s' -> (exists i x, ev = EInit i x /\ s' = fst (init i x s)) \/ ki s s'.
Proof.
  unfold step, step_ret.
  destruct ev as [i x|now|a|a|a i|i|to ty b w q|to l q|z| |now feed|l|i|o l]; cbn [option_map fst];
    try (intros [= <-]; right; solve [ogo | apply ki_set_salts]).
  - intros [= <-]. left. now exists i, x.
  - intros [= <-]. right. apply ki_start.
  - destruct (proc k now feed s) as [s1|] eqn:E; [|discriminate]. intros [= <-]. right. eapply ki_proc; eauto.
  - intros [= <-]. right. apply ki_poll.
Qed.
Lemma intro_step k ev s s' : step k ev s = Some s' -> adds (Q (cf s) (self s)) s s'.
Proof. intro E. destruct (ki_step k ev s s' E) as [(i & x & _ & ->)|K]; [apply intro_init|now apply J_log]. Qed.
End Intro.
