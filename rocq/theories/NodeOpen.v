(** Which connections a node opens, and to which addresses. *)
From Verif Require Import Base Subnet Route Address NodeTypes NodeConn NodeCore NodeMsg Node
  NodeFrame NodeReset NodeInv NodeKeep NodeSteps NodeCtx NodeReach NodeSpec NodeLog PropNodeConn.
Local Open Scope N_scope.
Ltac Zify.zify_post_hook ::= idtac.

Definition reaches (x : cfg) (host : bytes) (pid : N) (a : bytes) : Prop :=
  (is_local_host (Some a) = true -> host = x_host x) /\ (is_local_process (Some a) = true -> pid = x_pid x).
Section Open.
(** [P]: the addresses that may be used; [base]: connections from this number on are new. *)
Variable P : bytes -> Prop.
Variable base : N.
Definition fine (b : bytes) : Prop := b = [] \/ exists a, P a /\ target a b.
Record ko (s s' : node) : Prop := {
  O_cf : cf s' = cf s;
  O_ne : nexte s <= nexte s';
  O_ep : forall e, e < nexte s -> d_host (es s' e) = d_host (es s e) /\ d_pid (es s' e) = d_pid (es s e);
  O_nc : nextc s <= nextc s';
  O_old : base <= nextc s -> forall c, c < base -> k_addr (cs s' c) = k_addr (cs s c);
  O_new : base <= nextc s -> (forall c, base <= c -> c < nextc s -> fine (k_addr (cs s c))) ->
          forall c, base <= c -> c < nextc s' -> fine (k_addr (cs s' c)) }.
Lemma ko_refl s : ko s s. Proof. constructor; auto; lia. Qed.
Lemma ko_trans s1 s2 s3 : ko s1 s2 -> ko s2 s3 -> ko s1 s3.
Proof.
  intros [A1 A2 A3 A4 A5 A6] [B1 B2 B3 B4 B5 B6]. constructor; try congruence; try lia.
  - intros e H. destruct (A3 e H) as [<- <-]. apply B3. lia.
  - intros H c L. rewrite B5 by lia. now apply A5.
  - intros H F. apply B6; [lia|]. now apply A6.
Qed.
Lemma ko_intro s s' : cf s' = cf s -> nexte s' = nexte s -> nextc s' = nextc s ->
  (forall c, k_addr (cs s' c) = k_addr (cs s c)) ->
  (forall e, d_host (es s' e) = d_host (es s e) /\ d_pid (es s' e) = d_pid (es s e)) -> ko s s'.
Proof. intros A B C D E. constructor; auto; try lia. rewrite C. intros _ F c. rewrite D. apply F. Qed.
Lemma ko_emit t s : ko s (emit t s). Proof. now apply ko_intro. Qed.
Lemma ko_on_c c f s : (forall k, k_addr (f k) = k_addr k) -> ko s (on_c c f s).
Proof. intro F. apply ko_intro; auto. intro y. rewrite cs_on_c. destruct (y =? c) eqn:E; auto. apply N.eqb_eq in E as ->. apply F. Qed.
Lemma ko_on_e e f s : (forall d, d_host (f d) = d_host d /\ d_pid (f d) = d_pid d) -> ko s (on_e e f s).
Proof. intro F. apply ko_intro; auto. intro y. rewrite es_on_e. destruct (y =? e) eqn:E; auto. apply N.eqb_eq in E as ->. apply F. Qed.
Lemma ko_addr c f a b s : (forall k, k_addr (f k) = b) -> base <= c -> P a -> target a b -> ko s (on_c c f s).
Proof.
  intros G L H T. constructor; try reflexivity; try (cbn; lia); auto.
  - intros M y Y. rewrite cs_on_c. destruct (N.eqb_spec y c); [lia|reflexivity].
  - intros M F y Y Z. rewrite cs_on_c. destruct (y =? c); [|now apply F]. right. exists a. now rewrite G.
Qed.

Create HintDb ko discriminated.
#[local] Hint Constants Opaque : ko.
#[local] Hint Variables Opaque : ko.
#[local] Hint Resolve ko_emit ko_on_c ko_on_e : ko.
#[local] Hint Extern 1 (forall _, k_addr _ = _) => intro; reflexivity : ko.
#[local] Hint Extern 1 (forall _, d_host _ = _ /\ d_pid _ = _) => intro; repeat match goal with |- context [match ?b with _ => _ end] => destruct b end; split; reflexivity : ko.
Ltac omvn H v :=
  lazymatch type of H with
  | ko ?s ?s1 => refine (ko_trans s s1 _ H _); clear H; set (v := s1) in *; clearbody v
  end.
Ltac omv H := let v := fresh "s" in omvn H v.
Ltac oleaf := solve [eauto 3 with ko].
Ltac og1 :=
  cbv beta;
  lazymatch goal with
  | |- ko ?s ?s => apply ko_refl
  | |- ko ?s (fst (let x := ?e in @?b x)) => og_let s e ltac:(fun e' => change (ko s (fst (b e'))))
  | |- ko ?s (let x := ?e in @?b x) => og_let s e ltac:(fun e' => change (ko s (b e')))
  | |- ko ?s (fst (fst (let x := ?e in @?b x))) => og_let s e ltac:(fun e' => change (ko s (fst (fst (b e')))))
  | |- ko ?s (fst (fst (fst (let x := ?e in @?b x)))) => og_let s e ltac:(fun e' => change (ko s (fst (fst (fst (b e'))))))
  | |- ko ?s (fst (fst (fst (match ?x with _ => _ end)))) => og_case s x
  | |- ko ?s (fst (fst (match ?x with _ => _ end))) => og_case s x
  | |- ko ?s (fst (match ?x with _ => _ end)) => og_case s x
  | |- ko ?s (match ?x with _ => _ end) => og_case s x
  | |- ko ?s (fst (fst (fst (?x, ?y)))) => change (ko s (fst (fst x)))
  | |- ko ?s (fst (fst (?x, ?y))) => change (ko s (fst x))
  | |- ko ?s (fst (?x, ?y)) => change (ko s x)
  | |- ko ?s (fst (fst (fst (?h ?t)))) => og_at s t
  | |- ko ?s (fst (fst (?h ?t))) => og_at s t
  | |- ko ?s (fst (?h ?t)) => og_at s t
  | |- ko ?s (?g ?t) => og_at s t
  end
with og_at s t :=
  first [ constr_eq s t; oleaf
        | let H := fresh in assert (H : ko s t) by (repeat og1); omv H; oleaf ]
with og_let s e k :=
  lazymatch type of e with
  | node =>
      first [ constr_eq s e; k s; cbv beta
            | let H := fresh in assert (H : ko s e) by (repeat og1); k e; cbv beta; omv H ]
  | _ => let v := fresh in set (v := e); k v; cbv beta; clearbody v
  end
with og_case s x :=
  lazymatch type of x with
  | (node * _)%type =>
      let H := fresh in assert (H : ko s (fst x)) by (repeat og1);
      let E := fresh "E" in destruct x as [? ?] eqn:E; cbn [fst] in H; clear E; omv H
  | (node * _ * _)%type =>
      let H := fresh in assert (H : ko s (fst (fst x))) by (repeat og1);
      let E := fresh "E" in destruct x as [[? ?] ?] eqn:E; cbn [fst] in H; clear E; omv H
  | (node * _ * _ * _)%type =>
      let H := fresh in assert (H : ko s (fst (fst (fst x)))) by (repeat og1);
      let E := fresh "E" in destruct x as [[[? ?] ?] ?] eqn:E; cbn [fst] in H; clear E; omv H
  | _ => let E := fresh "E" in destruct x eqn:E in |- *
  end.
Ltac ogo := repeat og1.
Ltac oframe := intros; apply ko_intro; first [reflexivity | fr1].
Lemma ko_set_nst v s : ko s (set_nst v s). Proof. now apply ko_intro. Qed.
#[local] Hint Resolve ko_set_nst : ko.
Lemma ko_set_parent v s : ko s (set_parent v s). Proof. now apply ko_intro. Qed.
#[local] Hint Resolve ko_set_parent : ko.
Lemma ko_set_routes v s : ko s (set_routes v s). Proof. now apply ko_intro. Qed.
#[local] Hint Resolve ko_set_routes : ko.
Lemma ko_set_fl_self v s : ko s (set_fl_self v s). Proof. now apply ko_intro. Qed.
#[local] Hint Resolve ko_set_fl_self : ko.
Lemma ko_set_fl_gce v s : ko s (set_fl_gce v s). Proof. now apply ko_intro. Qed.
#[local] Hint Resolve ko_set_fl_gce : ko.
Lemma ko_set_fl_gcc v s : ko s (set_fl_gcc v s). Proof. now apply ko_intro. Qed.
#[local] Hint Resolve ko_set_fl_gcc : ko.
Lemma ko_set_fl_gcreset v s : ko s (set_fl_gcreset v s). Proof. now apply ko_intro. Qed.
#[local] Hint Resolve ko_set_fl_gcreset : ko.
Lemma ko_fold {A} (f : node -> A -> node) : (forall s x, ko s (f s x)) -> forall l s, ko s (fold_left f l s).
Proof. intros F l. induction l as [|x r IH]; intro s; cbn [fold_left]; [apply ko_refl|]. eapply ko_trans; [apply F|apply IH]. Qed.
Lemma ko_set_connecting v s : ko s (set_connecting v s). Proof. now apply ko_intro. Qed.
#[local] Hint Resolve ko_set_connecting : ko.
Lemma ko_set_pings v s : ko s (set_pings v s). Proof. now apply ko_intro. Qed.
#[local] Hint Resolve ko_set_pings : ko.
Lemma ko_set_pend v s : ko s (set_pend v s). Proof. now apply ko_intro. Qed.
#[local] Hint Resolve ko_set_pend : ko.
Lemma ko_set_lpend v s : ko s (set_lpend v s). Proof. now apply ko_intro. Qed.
#[local] Hint Resolve ko_set_lpend : ko.
Lemma ko_set_gce v s : ko s (set_gce v s). Proof. now apply ko_intro. Qed.
#[local] Hint Resolve ko_set_gce : ko.
Lemma ko_set_gcc v s : ko s (set_gcc v s). Proof. now apply ko_intro. Qed.
#[local] Hint Resolve ko_set_gcc : ko.
Lemma ko_set_procs v s : ko s (set_procs v s). Proof. now apply ko_intro. Qed.
#[local] Hint Resolve ko_set_procs : ko.
Lemma ko_set_seqn v s : ko s (set_seqn v s). Proof. now apply ko_intro. Qed.
#[local] Hint Resolve ko_set_seqn : ko.
Lemma ko_set_qdata v s : ko s (set_qdata v s). Proof. now apply ko_intro. Qed.
#[local] Hint Resolve ko_set_qdata : ko.
Lemma ko_set_qcmd v s : ko s (set_qcmd v s). Proof. now apply ko_intro. Qed.
#[local] Hint Resolve ko_set_qcmd : ko.
Lemma ko_set_orc v s : ko s (set_orc v s). Proof. now apply ko_intro. Qed.
#[local] Hint Resolve ko_set_orc : ko.
Lemma ko_set_salts v s : ko s (set_salts v s). Proof. now apply ko_intro. Qed.
#[local] Hint Resolve ko_set_salts : ko.
Lemma ko_set_fl_act v s : ko s (set_fl_act v s). Proof. now apply ko_intro. Qed.
#[local] Hint Resolve ko_set_fl_act : ko.
Lemma ko_set_fl_shut v s : ko s (set_fl_shut v s). Proof. now apply ko_intro. Qed.
#[local] Hint Resolve ko_set_fl_shut : ko.
Lemma ko_set_fl_preg v s : ko s (set_fl_preg v s). Proof. now apply ko_intro. Qed.
#[local] Hint Resolve ko_set_fl_preg : ko.
Lemma ko_set_fl_reset v s : ko s (set_fl_reset v s). Proof. now apply ko_intro. Qed.
#[local] Hint Resolve ko_set_fl_reset : ko.
Lemma ko_set_sec v s : ko s (set_sec v s). Proof. now apply ko_intro. Qed.
#[local] Hint Resolve ko_set_sec : ko.
Lemma ko_rm_timer c s : ko s (rm_timer c s). Proof. unfold rm_timer. ogo. Qed.
#[local] Hint Resolve ko_rm_timer : ko.
Lemma ko_set_status c v s : ko s (set_status c v s). Proof. unfold set_status. ogo. Qed.
#[local] Hint Resolve ko_set_status : ko.
Lemma ko_on_actived s : ko s (on_actived s). Proof. unfold on_actived. ogo. Qed.
#[local] Hint Resolve ko_on_actived : ko.
Lemma ko_shutdown z s : ko s (shutdown z s). Proof. unfold shutdown. ogo. Qed.
#[local] Hint Resolve ko_shutdown : ko.
Lemma ko_fatal_shutdown z s : ko s (fatal_shutdown z s). Proof. apply ko_shutdown. Qed.
#[local] Hint Resolve ko_fatal_shutdown : ko.
Lemma ko_set_popr v s : ko s (set_popr v s). Proof. now apply ko_intro. Qed.
#[local] Hint Resolve ko_set_popr : ko.
Lemma ko_on_disconnect c s : ko s (on_disconnect c s). Proof. unfold on_disconnect. ogo. Qed.
#[local] Hint Resolve ko_on_disconnect : ko.
Lemma ko_rm_proc a s : ko s (rm_proc a s). Proof. unfold rm_proc. ogo. Qed.
#[local] Hint Resolve ko_rm_proc : ko.
Lemma ko_add_proc c s : ko s (add_proc c s). Proof. unfold add_proc. ogo. Qed.
#[local] Hint Resolve ko_add_proc : ko.
Lemma ko_add_timer c s : ko s (add_timer c s). Proof. unfold add_timer. ogo. Qed.
#[local] Hint Resolve ko_add_timer : ko.
Lemma ko_gc_conn c s : ko s (gc_conn c s). Proof. unfold gc_conn. ogo. Qed.
#[local] Hint Resolve ko_gc_conn : ko.
Lemma ko_gc_ep e s : ko s (gc_ep e s). Proof. unfold gc_ep. ogo. Qed.
#[local] Hint Resolve ko_gc_ep : ko.
Lemma ko_clear_ping e s : ko s (clear_ping e s). Proof. unfold clear_ping. ogo. Qed.
#[local] Hint Resolve ko_clear_ping : ko.
Lemma ko_insert_ping e s : ko s (insert_ping e s). Proof. unfold insert_ping. ogo. Qed.
#[local] Hint Resolve ko_insert_ping : ko.
Lemma ko_add_ping e s : ko s (add_ping e s). Proof. unfold add_ping. ogo. Qed.
#[local] Hint Resolve ko_add_ping : ko.
Lemma ko_disconnect c s : ko s (disconnect c s). Proof. unfold disconnect. ogo. Qed.
#[local] Hint Resolve ko_disconnect : ko.
Lemma ko_conn_close c s : ko s (conn_close c s). Proof. unfold conn_close. ogo. Qed.
#[local] Hint Resolve ko_conn_close : ko.
Lemma ko_conn_fin c s : ko s (conn_fin c s). Proof. unfold conn_fin. ogo. Qed.
#[local] Hint Resolve ko_conn_fin : ko.
Lemma ko_conn_reset_in c s : ko s (conn_reset_in c s). Proof. unfold conn_reset_in. ogo. Qed.
#[local] Hint Resolve ko_conn_reset_in : ko.
Lemma ko_resets l s : ko s (fold_left (fun s c => conn_reset_in c s) l s). Proof. apply ko_fold. intros. apply ko_conn_reset_in. Qed.
#[local] Hint Resolve ko_resets : ko.
Lemma ko_ep_reset b g e s : ko s (ep_reset b g e s). Proof. unfold ep_reset. ogo. Qed.
#[local] Hint Resolve ko_ep_reset : ko.
Lemma ko_conn_reset c s : ko s (conn_reset c s). Proof. unfold conn_reset. ogo. Qed.
#[local] Hint Resolve ko_conn_reset : ko.
Lemma ko_ep_drop e s : ko s (ep_drop e s). Proof. unfold ep_drop. ogo. Qed.
#[local] Hint Resolve ko_ep_drop : ko.
Lemma ko_conn_drop c s : ko s (conn_drop c s). Proof. unfold conn_drop. ogo. Qed.
#[local] Hint Resolve ko_conn_drop : ko.
Lemma ko_conn_fault c s : ko s (conn_fault c s). Proof. unfold conn_fault. ogo. Qed.
#[local] Hint Resolve ko_conn_fault : ko.
Lemma ko_add_endpoint e s : ko s (fst (add_endpoint e s)). Proof. unfold add_endpoint. ogo. Qed.
#[local] Hint Resolve ko_add_endpoint : ko.
Lemma ko_remove_endpoint i x s : ko s (fst (remove_endpoint i x s)). Proof. unfold remove_endpoint. ogo. Qed.
#[local] Hint Resolve ko_remove_endpoint : ko.
Lemma ko_ep_fault e s : ko s (fst (ep_fault e s)). Proof. unfold ep_fault. ogo. Qed.
#[local] Hint Resolve ko_ep_fault : ko.
Lemma ko_add_listen e a s : ko s (add_listen e a s). Proof. unfold add_listen. ogo. Qed.
#[local] Hint Resolve ko_add_listen : ko.
Lemma ko_written c z n s : ko s (written c z n s). Proof. unfold written. ogo. Qed.
#[local] Hint Resolve ko_written : ko.
Lemma ko_conn_create s : ko s (fst (conn_create s)).
Proof.
  unfold conn_create. cbn [fst]. eapply ko_trans; [|apply ko_add_timer]. constructor; cbn [cf nexte es nextc cs set_cs set_nextc]; try reflexivity; try lia; auto.
  - intros H c L. unfold upd. destruct (N.eqb_spec c (nextc s)); [lia|reflexivity].
  - intros H F c L M. unfold upd. destruct (N.eqb_spec c (nextc s)); [now left|]. apply F; lia.
Qed.
#[local] Hint Resolve ko_conn_create : ko.
Lemma ko_ep_create i u p h s : ko s (fst (ep_create i u p h s)).
Proof.
  unfold ep_create. cbn [fst]. eapply ko_trans; [|apply ko_insert_ping]. constructor; cbn [cf nexte es nextc cs set_es set_nexte]; try reflexivity; try lia; auto.
  intros e L. unfold upd. destruct (N.eqb_spec e (nexte s)); [lia|auto].
Qed.
#[local] Hint Resolve ko_ep_create : ko.
Lemma ko_add_connection e c b s : ko s (fst (add_connection e c b s)). Proof. unfold add_connection. ogo. Qed.
#[local] Hint Resolve ko_add_connection : ko.
Lemma ko_created e s : ko s (fst (created e s)). Proof. unfold created. ogo. Qed.
#[local] Hint Resolve ko_created : ko.
Lemma ko_alloc_seq  s : ko s (fst (alloc_seq  s)). Proof. unfold alloc_seq. ogo. Qed.
#[local] Hint Resolve ko_alloc_seq : ko.
Lemma ko_take_orc  s : ko s (fst (take_orc  s)). Proof. unfold take_orc. ogo. Qed.
#[local] Hint Resolve ko_take_orc : ko.
Lemma ko_take_salt  s : ko s (fst (take_salt  s)). Proof. unfold take_salt. ogo. Qed.
#[local] Hint Resolve ko_take_salt : ko.
Lemma ko_push c m s : ko s (fst (push c m s)). Proof. unfold push. ogo. Qed.
#[local] Hint Resolve ko_push : ko.
Lemma ko_send_on c m s : ko s (fst (send_on c m s)). Proof. unfold send_on. ogo. Qed.
#[local] Hint Resolve ko_send_on : ko.

Lemma ko_gen_keys ts : forall s, ko s (fst (gen_keys ts s)).
Proof. induction ts as [|t r IH]; intro s; cbn [gen_keys]; ogo. Qed.
#[local] Hint Resolve ko_gen_keys : ko.
Lemma ko_send_reg rsp c z q s : ko s (fst (send_reg rsp c z q s)). Proof. unfold send_reg. ogo. Qed.
#[local] Hint Resolve ko_send_reg : ko.
Lemma ko_send_ping c q s : ko s (fst (send_ping c q s)). Proof. unfold send_ping. ogo. Qed.
#[local] Hint Resolve ko_send_ping : ko.
Lemma ko_on_new_connection c s : ko s (on_new_connection c s). Proof. unfold on_new_connection. ogo. Qed.
#[local] Hint Resolve ko_on_new_connection : ko.
Lemma ko_number m s : ko s (fst (number m s)). Proof. unfold number. ogo. Qed.
#[local] Hint Resolve ko_number : ko.
Lemma ko_post d i m s : ko s (fst (post d i m s)). Proof. unfold post. ogo. Qed.
#[local] Hint Resolve ko_post : ko.
Lemma ko_send_cmd_rsp oc d t z q f s : ko s (fst (send_cmd_rsp oc d t z q f s)). Proof. unfold send_cmd_rsp. ogo. Qed.
#[local] Hint Resolve ko_send_cmd_rsp : ko.
Lemma ko_cmd_req oc h q s : ko s (fst (cmd_req oc h q s)). Proof. unfold cmd_req. ogo. Qed.
#[local] Hint Resolve ko_cmd_req : ko.
Lemma ko_cmd_rsp oc h q s : ko s (fst (cmd_rsp oc h q s)). Proof. unfold cmd_rsp. ogo. Qed.
#[local] Hint Resolve ko_cmd_rsp : ko.
Lemma ko_self_data m s : ko s (self_data m s). Proof. unfold self_data. ogo. Qed.
#[local] Hint Resolve ko_self_data : ko.
Lemma ko_self_cmd m s : ko s (self_cmd m s). Proof. unfold self_cmd. ogo. Qed.
#[local] Hint Resolve ko_self_cmd : ko.
Lemma ko_data_loop n : forall s, ko s (fst (fst (self_data_loop n s))).
Proof. induction n as [|n IH]; intro s; cbn [self_data_loop]; ogo. Qed.
Lemma ko_cmd_loop n : forall s, ko s (fst (self_cmd_loop n s)).
Proof. induction n as [|n IH]; intro s; cbn [self_cmd_loop]; ogo. Qed.
#[local] Hint Resolve ko_data_loop ko_cmd_loop : ko.
Lemma ko_dispatch_self s : ko s (fst (dispatch_self s)).
Proof. unfold dispatch_self. ogo. Qed.
#[local] Hint Resolve ko_dispatch_self : ko.
Lemma ko_send_to d i m s : ko s (fst (send_to d i m s)). Proof. unfold send_to. ogo. Qed.
#[local] Hint Resolve ko_send_to : ko.
(** The hypotheses a hint can discharge. *)
Lemma ko_conn_connect c a s : base <= c -> P a -> ko s (fst (conn_connect c a s)).
Proof.
  intros L H. assert (A : forall b, target a b -> forall s, ko s (on_c c (set_k_addr b) s)) by (intros; now apply (ko_addr c _ a b)).
  unfold conn_connect. destruct (k_st (cs s c)); try apply ko_refl.
  destruct (parse_address a) as [|p| |] eqn:E; cbn [fst]; try apply ko_emit; [apply A; now left|].
  assert (K : ko s (on_c c (set_k_addr a) s)) by (apply A; now left). cbv zeta. omvn K s1.
  destruct (_ || _); [ogo|].
  set (s2 := if _ && _ then _ else _). assert (K : ko s1 s2).
  { subst s2. destruct (_ && bytes_eqb (a_host p) any4) eqn:E4; [apply A; right; exists p; split; [exact E|left]; split; [|reflexivity];
      apply andb_prop in E4 as [_ E4]; now apply bytes_eqb_true|].
    destruct (_ && bytes_eqb (a_host p) any6) eqn:E6; [apply A; right; exists p; split; [exact E|right]; split; [|reflexivity];
      apply andb_prop in E6 as [_ E6]; now apply bytes_eqb_true|]. ogo. }
  clearbody s2. omvn K s3. ogo.
Qed.
Lemma created_fresh s : base <= nextc s -> base <= snd (conn_create s).
Proof. exact (fun H => H). Qed.
Lemma ko_connect a s : base <= nextc s -> P a -> ko s (fst (connect a s)).
Proof.
  intros L H. unfold connect. destruct (nst s); try apply ko_refl; (destruct (existsb _ _); [apply ko_refl|]);
  pose proof (created_fresh s L) as F; pose proof (ko_conn_create s) as K; destruct (conn_create s) as [s1 c]; cbn [fst snd] in *;
  omvn K s2; (destruct (_ || _); [apply ko_refl|]);
  pose proof (ko_conn_connect c a s2 F H) as K; destruct (conn_connect c a s2) as [s3 r]; cbn [fst] in K; now destruct (_ <? _)%Z.
Qed.
Lemma ko_connect_ep a e s : base <= nextc s -> P a -> ko s (fst (connect_ep a e s)).
Proof.
  intros L H. unfold connect_ep. destruct (nst s); try apply ko_refl; (destruct (existsb _ _); [apply ko_refl|]);
  pose proof (created_fresh s L) as F; pose proof (ko_conn_create s) as K; destruct (conn_create s) as [s1 c]; cbn [fst snd] in *;
  omvn K s2; pose proof (ko_conn_connect c a s2 F H) as K; destruct (conn_connect c a s2) as [s3 r]; cbn [fst] in K; omvn K s4; ogo.
Qed.
Lemma ko_listen_cb c z s : ko s (listen_cb c z s). Proof. unfold listen_cb. ogo. Qed.
#[local] Hint Resolve ko_listen_cb : ko.
Lemma ko_conn_listen c a s : base <= c -> P a -> ko s (fst (conn_listen c a s)).
Proof.
  intros L H. assert (K : ko s (on_c c (set_k_addr a) s)) by (apply (ko_addr c _ a a); trivial; now left).
  unfold conn_listen. destruct (k_st (cs s c)); try apply ko_refl.
  destruct (parse_address a) as [|p| |]; cbn [fst]; try apply ko_emit; [exact K|]. cbv zeta. omvn K s1. ogo.
Qed.
Lemma ko_listen a s : base <= nextc s -> P a -> ko s (fst (listen a s)).
Proof.
  intros L H. unfold listen. destruct (nst s); try apply ko_refl;
  pose proof (created_fresh s L) as F; pose proof (ko_conn_create s) as K; destruct (conn_create s) as [s1 c]; cbn [fst snd] in *;
  omvn K s2; pose proof (ko_conn_listen c a s2 F H) as K; destruct (conn_listen c a s2) as [s3 r]; cbn [fst] in K; omvn K s4; ogo.
Qed.
Lemma ko_connected_cb c z s : ko s (connected_cb c z s). Proof. unfold connected_cb. ogo. Qed.
#[local] Hint Resolve ko_connected_cb : ko.
Lemma ko_listened c z s : ko s (listened c z s). Proof. unfold listened. ogo. Qed.
#[local] Hint Resolve ko_listened : ko.
Lemma ko_accept_failed s : ko s (accept_failed s). Proof. unfold accept_failed. ogo. Qed.
#[local] Hint Resolve ko_accept_failed : ko.
Lemma ko_accepted a s : base <= nextc s -> P a -> ko s (accepted a s).
Proof.
  intros L H. unfold accepted. destruct (_ && _); [apply ko_refl|].
  pose proof (created_fresh s L) as F. pose proof (ko_conn_create s) as K. destruct (conn_create s) as [s1 c]. cbn [fst snd] in *.
  omvn K s2. cbv zeta. assert (K : ko s2 (set_status c Handshaking s2)) by ogo. omvn K s3.
  set (s4 := on_c c _ s3). assert (K : ko s3 s4).
  { apply (ko_addr c _ a a); trivial. now left. }
  clearbody s4. omvn K s5. ogo.
Qed.
Lemma ko_peer_closed c s : ko s (peer_closed c s). Proof. unfold peer_closed. ogo. Qed.
#[local] Hint Resolve ko_peer_closed : ko.
Lemma ko_node_disconnect i s : ko s (fst (node_disconnect i s)). Proof. unfold node_disconnect. ogo. Qed.
#[local] Hint Resolve ko_node_disconnect : ko.
Lemma ko_transfer_rsp h w z s : ko s (fst (transfer_rsp h w z s)). Proof. unfold transfer_rsp. ogo. Qed.
#[local] Hint Resolve ko_transfer_rsp : ko.
Lemma ko_forward r h w f t s : ko s (fst (fst (fst (forward r h w f t s)))). Proof. unfold forward. ogo. Qed.
#[local] Hint Resolve ko_forward : ko.
Lemma ko_connect_sync x y s : ko s (fst (connect_sync x y s)). Proof. unfold connect_sync. ogo. Qed.
#[local] Hint Resolve ko_connect_sync : ko.
Lemma ko_data_req c h w s : ko s (fst (data_req c h w s)). Proof. unfold data_req. ogo. Qed.
#[local] Hint Resolve ko_data_req : ko.
Lemma ko_data_rsp c h w s : ko s (fst (data_rsp c h w s)). Proof. unfold data_rsp. ogo. Qed.
#[local] Hint Resolve ko_data_rsp : ko.
Lemma ko_sync_msg r c h s : ko s (fst (sync_msg r c h s)). Proof. unfold sync_msg. ogo. Qed.
#[local] Hint Resolve ko_sync_msg : ko.
Lemma ko_reg_deny c z q s : ko s (fst (reg_deny c z q s)). Proof. unfold reg_deny. ogo. Qed.
#[local] Hint Resolve ko_reg_deny : ko.
Lemma ko_ping_msg c h t s : ko s (fst (ping_msg c h t s)). Proof. unfold ping_msg. ogo. Qed.
#[local] Hint Resolve ko_ping_msg : ko.
Lemma ko_pong_msg c h t s : ko s (fst (pong_msg c h t s)). Proof. unfold pong_msg. ogo. Qed.
#[local] Hint Resolve ko_pong_msg : ko.
Lemma ko_fault_of c s : ko s (fault_of c s). Proof. unfold fault_of. ogo. Qed.
#[local] Hint Resolve ko_fault_of : ko.
Lemma ko_sweep n now : forall s, ko s (sweep n now s).
Proof. induction n as [|n IH]; intro s; cbn [sweep]; ogo. Qed.
#[local] Hint Resolve ko_sweep : ko.
Lemma ko_fault_drop h e s : ko s (fst (fault_drop h e s)). Proof. unfold fault_drop. ogo. Qed.
#[local] Hint Resolve ko_fault_drop : ko.
Lemma ko_ping_endpoint h e s : ko s (fst (ping_endpoint h e s)). Proof. unfold ping_endpoint. ogo. Qed.
#[local] Hint Resolve ko_ping_endpoint : ko.
Lemma ko_idle_out n e s : ko s (fst (idle_out n e s)). Proof. unfold idle_out. ogo. Qed.
#[local] Hint Resolve ko_idle_out : ko.
Lemma ko_release nx s : ko s (release nx s). Proof. unfold release. ogo. Qed.
#[local] Hint Resolve ko_release : ko.
Lemma ko_ping_loop now n : forall nx s s', ping_loop n now nx s = Some s' -> ko s s'.
Proof.
  induction n as [|n IH]; intros nx s s' X; cbn [ping_loop] in X; [discriminate|].
  destruct (pings s) as [|[t e0] l]; [injection X as <-; apply ko_release|].
  destruct (now <? t); [injection X as <-; apply ko_release|]. cbv zeta in X.
  set (e := match nx with Some e => e | None => e0 end) in X.
  pose proof (ko_idle_out now e s) as K. destruct (idle_out now e s) as [s1 out]. cbn [fst] in K. omvn K s2.
  destruct out.
  - apply IH in X. refine (ko_trans _ _ _ _ X). ogo.
  - set (s3 := if match parent s2 with Some p => e_ref p =? e | None => false end then s2 else fst (ping_endpoint true e s2)) in X.
    assert (K : ko s2 s3) by (unfold s3; destruct (match parent s2 with Some p => _ | None => _ end); ogo).
    clearbody s3. omvn K s5.
    set (s4 := add_ping (d_ep (es s5 e)) s5) in X.
    assert (K : ko s5 s4) by (unfold s4; ogo). clearbody s4. omvn K s6.
    destruct (pings s6) as [|[t2 e2] r]; [injection X as <-; ogo|].
    destruct (now <? t2); [injection X as <-; ogo|].
    destruct (negb (t2 =? t)); [|destruct (e2 =? e)]; apply IH in X; refine (ko_trans _ _ _ _ X); ogo.
Qed.
Lemma ko_gc_one s x : ko s (gc_one s x).
Proof. unfold gc_one. ogo. Qed.
Lemma ko_drop_ep s e : ko s (drop_ep s e). Proof. apply ko_ep_drop. Qed.
Lemma ko_gcs l s : ko s (fold_left gc_one l s). Proof. apply ko_fold. intros. apply ko_gc_one. Qed.
Lemma ko_drops l s : ko s (fold_left drop_ep l s). Proof. apply ko_fold. intros. apply ko_drop_ep. Qed.
Lemma ko_cdrops l s : ko s (fold_left (fun s c => conn_drop c s) l s). Proof. apply ko_fold. intros. apply ko_conn_drop. Qed.
#[local] Hint Resolve ko_gcs ko_drops ko_cdrops : ko.
Lemma ko_collect s : ko s (collect s).
Proof. unfold collect. ogo. Qed.
#[local] Hint Resolve ko_collect : ko.
Lemma ko_send_data a b c d e s : ko s (fst (send_data a b c d e s)). Proof. unfold send_data. ogo. Qed.
#[local] Hint Resolve ko_send_data : ko.
Lemma ko_send_custom a b c s : ko s (fst (send_custom a b c s)). Proof. unfold send_custom. ogo. Qed.
#[local] Hint Resolve ko_send_custom : ko.
Lemma ko_connecting m : forall s, ko s (drop_connecting m s).
Proof. induction m as [|m IH]; intro s; cbn [drop_connecting]; [apply ko_refl|]. ogo. Qed.
#[local] Hint Resolve ko_connecting : ko.
Lemma ko_finish_connects l : forall s, ko s (finish_connects l s).
Proof. induction l as [|c r IH]; intro s; cbn [finish_connects]; ogo. Qed.
#[local] Hint Resolve ko_finish_connects : ko.
Lemma ko_finish_listens l : forall s, ko s (finish_listens l s).
Proof. induction l as [|c r IH]; intro s; cbn [finish_listens]; ogo. Qed.
#[local] Hint Resolve ko_finish_listens : ko.
Lemma ko_drain m : forall s, ko s (drain m s).
Proof. induction m as [|m IH]; intro s; cbn [drain]; ogo. Qed.
#[local] Hint Resolve ko_drain : ko.
Lemma ko_presets l s : ko s (fold_left (fun s (p : bytes * N) => conn_reset (snd p) s) l s).
Proof. apply (ko_fold (fun s (p : bytes * N) => conn_reset (snd p) s)). intros. apply ko_conn_reset. Qed.
Lemma ko_removals l s : ko s (fold_left (fun s e => emit (TRemoved e) s) l s).
Proof. apply ko_fold. intros. apply ko_emit. Qed.
Lemma ko_unpings l s : ko s (fold_left (fun s (p : N * N) => clear_ping (snd p) (ep_reset None false (snd p) s)) l s).
Proof. apply ko_fold. intros. ogo. Qed.
#[local] Hint Resolve ko_presets ko_removals ko_unpings : ko.
Lemma ko_reset s : ko s (reset s). Proof. unfold reset. ogo. Qed.
#[local] Hint Resolve ko_reset : ko.
Lemma ko_stop_if_shut s : ko s (stop_if_shut s). Proof. unfold stop_if_shut. ogo. Qed.
#[local] Hint Resolve ko_stop_if_shut : ko.

(** What messages may add. *)
Lemma ko_open_channels e can l : forall has s, base <= nextc s -> e_ref e < nexte s ->
  (forall a, In a l -> reaches (cf s) (d_host (es s (e_ref e))) (d_pid (es s (e_ref e))) a -> P a) ->
  ko s (fst (open_channels e can l has s)).
Proof.
  induction l as [|a r IH]; intros has s L E H; [apply ko_refl|].
  assert (G : forall has s1, ko s s1 -> ko s (fst (open_channels e can r has s1))).
  { intros h s1 K. eapply ko_trans; [exact K|]. pose proof (O_ne _ _ K). pose proof (O_nc _ _ K). destruct (O_ep _ _ K (e_ref e) E) as [A B].
    apply IH; [lia|lia|]. rewrite (O_cf _ _ K), A, B. intros x X. apply H. now right. }
  assert (G0 : forall has, ko s (fst (open_channels e can r has s))) by (intro; apply G, ko_refl).
  cbn [open_channels]. destruct a as [|x a]; [apply G0|]. set (b := x :: a) in *. clearbody b. cbv zeta.
  destruct (_ && is_duplex _); [apply G0|].
  destruct (is_local_host (Some b) && negb (same_host s (e_ref e))) eqn:E1; [apply G0|].
  destruct (is_local_process (Some b) && negb (same_pid s (e_ref e))) eqn:E2; [apply G0|].
  assert (PB : P b).
  { apply H; [now left|]. split; intro X.
    - rewrite X in E1. cbn [andb] in E1. apply negb_false_iff in E1. now apply bytes_eqb_true in E1.
    - rewrite X in E2. cbn [andb] in E2. apply negb_false_iff in E2. now apply N.eqb_eq in E2. }
  destruct (negb (my_id s =? 0) && negb (e_id e =? 0)); [|apply G; ogo].
  pose proof (ko_connect_ep b (e_ref e) s L PB) as K. destruct (connect_ep b (e_ref e) s) as [s1 res]. cbn [fst] in K.
  destruct (res <? 0)%Z; apply G; [exact K|]. eapply ko_trans; [exact K|]. ogo.
Qed.
Lemma ko_welcome c e r s : base <= nextc s -> e_ref e < nexte s ->
  (forall a, In a (r_chans r) -> reaches (cf s) (d_host (es s (e_ref e))) (d_pid (es s (e_ref e))) a -> P a) ->
  ko s (welcome c e r s).
Proof.
  intros L E H. unfold welcome. pose proof (ko_add_connection (e_ref e) c false s) as K.
  destruct (add_connection (e_ref e) c false s) as [s1 ok]. cbn [fst] in K.
  pose proof (ko_open_channels e (reachable_by s1 (e_ref e)) (r_chans r) false s1) as K1. cbv zeta.
  destruct (open_channels _ _ _ _ _) as [s2 has]. cbn [fst] in K1.
  assert (K2 : ko s s2).
  { eapply ko_trans; [exact K|]. pose proof (O_ne _ _ K). pose proof (O_nc _ _ K). destruct (O_ep _ _ K (e_ref e) E) as [A B].
    apply K1; [lia|lia|]. now rewrite (O_cf _ _ K), A, B. }
  omvn K2 s3. ogo.
Qed.
Definition may (x : cfg) (b : body) : Prop :=
  match b with
  | BReg false r => forall a, In a (r_chans r) -> reaches x (r_host r) (r_pid r) a -> P a
  | BConn a => is_simplex (Some a) = false -> a <> [] -> P a
  | _ => True
  end.
Lemma ko_reg_body c r s : base <= nextc s -> may (cf s) (BReg false r) -> ko s (fst (reg_body c r s)).
Proof.
  intros L H. unfold reg_body. destruct (is_connected s c); [ogo|]. destruct (r_id r =? 0); [ogo|].
  destruct (get_endpoint s (r_id r)) as [e|]; [ogo|]. destruct (reg_confs _ _) as [confs|]; [|ogo].
  destruct (_ && _); [ogo|]. destruct (endpoint_subnets _ _) as [subs|]; [|ogo].
  set (q := ep_create _ _ _ _ _). assert (K : ko s (fst q)) by (subst q; ogo).
  assert (E : e_ref (snd q) < nexte (fst q) /\ d_host (es (fst q) (e_ref (snd q))) = r_host r /\ d_pid (es (fst q) (e_ref (snd q))) = r_pid r).
  { subst q. unfold ep_create. cbn [fst snd e_ref]. unfold insert_ping. destruct (_ || _);
      [cbn [nexte set_nexte es set_es]|rewrite es_on_e; cbn [e_ref]; rewrite N.eqb_refl; cbn [nexte set_nexte set_pings es set_es on_e]];
      unfold upd; rewrite N.eqb_refl; cbn; repeat split; lia. }
  destruct q as [s1 e]. cbn [fst snd] in K, E. destruct E as (E1 & E2 & E3).
  cbv zeta. set (bad := if bytes_eqb _ _ then _ else _). clearbody bad.
  destruct (negb (bad =? E_OK)%Z).
  - omvn K s2. cbn [fst]. ogo.
  - pose proof (ko_add_endpoint e s1) as K1. destruct (add_endpoint e s1) as [s2 res]. cbn [fst] in K1.
    destruct (O_ep _ _ K1 _ E1) as [A B]. pose proof (O_ne _ _ K1). pose proof (O_nc _ _ K1). pose proof (O_nc _ _ K).
    assert (C2 : cf s2 = cf s) by (rewrite (O_cf _ _ K1); apply (O_cf _ _ K)).
    assert (K2 : ko s s2) by (eapply ko_trans; eassumption).
    destruct (res <? 0)%Z; cbn [fst].
    + omvn K2 s3. ogo.
    + eapply ko_trans; [exact K2|]. apply ko_welcome; [lia|lia|]. rewrite C2, A, B, E2, E3. exact H.
Qed.
Lemma ko_reg_req c h r s : base <= nextc s -> may (cf s) (BReg false r) -> ko s (fst (reg_req c h r s)).
Proof.
  intros L H. unfold reg_req. destruct (_ <? _)%Z; [ogo|]. destruct (negb _); [ogo|].
  pose proof (ko_reg_body c r s L H) as K. destruct (reg_body c r s) as [s1 code]. cbn [fst] in K. omvn K s2. ogo.
Qed.
Lemma ko_reg_rsp c h r s : ko s (fst (reg_rsp c h r s)).
Proof. unfold reg_rsp, parent_reg_done. ogo. Qed.
#[local] Hint Resolve ko_reg_rsp : ko.
Lemma connect_simplex a s : is_simplex (Some a) = true -> ko s (fst (connect a s)).
Proof.
  intro H. unfold connect. assert (E : prefix_nocase p_mem a || prefix_nocase p_shm a = true).
  { destruct a as [|x a]; [discriminate H|]. unfold is_simplex in H. cbn [non_empty] in H. destruct (prefix_nocase p_mem _); [reflexivity|exact H]. }
  rewrite E. ogo.
Qed.
Lemma ko_conn_syn c h a s : base <= nextc s -> may (cf s) (BConn a) -> ko s (fst (conn_syn c h a s)).
Proof.
  intros L H. unfold conn_syn. destruct (_ <? _)%Z; [ogo|]. destruct (negb _); [ogo|]. destruct a as [|x a]; [ogo|]. cbn [fst].
  destruct (is_simplex (Some (x :: a))) eqn:E; [now apply connect_simplex|]. apply ko_connect; [exact L|]. apply H; [exact E|discriminate].
Qed.
Lemma ko_dispatch_msg c m s : base <= nextc s -> may (cf s) (m_body m) -> ko s (fst (dispatch_msg c m s)).
Proof.
  intros L H. unfold dispatch_msg. cbv zeta.
  destruct (m_body m) as [[]|[]| |[] r|a|[]|]; try ogo; [now apply ko_reg_req|now apply ko_conn_syn].
Qed.
Lemma ko_on_recv c m s : base <= nextc s -> may (cf s) (m_body m) -> ko s (on_recv c m s).
Proof.
  intros L H. unfold on_recv. pose proof (ko_dispatch_msg c m s L H) as K. destruct (dispatch_msg c m s) as [s1 r]. cbn [fst] in K. omvn K s2. ogo.
Qed.
Definition item_may (x : cfg) (i : item) : Prop := match i with RMsg _ m => may x (m_body m) | _ => True end.
Lemma ko_recv_item c i s : base <= nextc s -> item_may (cf s) i -> ko s (recv_item c i s).
Proof.
  intros L H. unfold recv_item. destruct i as [z|k|k m]; [ogo|ogo|]. cbv zeta.
  set (s1 := on_c c _ s). assert (K : ko s s1) by (subst s1; ogo). assert (C : cf s1 = cf s) by reflexivity. assert (D : nextc s1 = nextc s) by reflexivity.
  clearbody s1. eapply ko_trans; [exact K|]. apply ko_on_recv; [lia|]. rewrite C. unfold stamp. destruct (k_bind _); [|exact H]. destruct (_ =? 0); exact H.
Qed.
Definition io_may (x : cfg) (i : io) : Prop := match i with IAccepted a => P a | IRecv _ i => item_may x i | _ => True end.
Lemma ko_io_step i s : base <= nextc s -> io_may (cf s) i -> ko s (io_step i s).
Proof.
  intros L H. unfold io_step. destruct (nst s); try apply ko_refl;
    (destruct i as [c z|c z|a|c|c z k|c i|]; try ogo; [now apply ko_accepted|]; destruct (k_kind _); try apply ko_refl; now apply ko_recv_item).
Qed.
Lemma ko_ios l : forall s, base <= nextc s -> (forall i, In i l -> io_may (cf s) i) -> ko s (fold_left (fun s i => io_step i s) l s).
Proof.
  induction l as [|i r IH]; intros s L H; cbn [fold_left]; [apply ko_refl|].
  assert (K : ko s (io_step i s)) by (apply ko_io_step; [exact L|apply H; now left]).
  eapply ko_trans; [exact K|]. pose proof (O_nc _ _ K). apply IH; [lia|]. rewrite (O_cf _ _ K). intros j J. apply H. now right.
Qed.
Lemma ko_proc_items m c : forall l s, base <= nextc s -> (forall i, In i l -> item_may (cf s) i) -> ko s (proc_items m c l s).
Proof.
  induction m as [|m IH]; intros l s L H; cbn [proc_items]; [apply ko_refl|].
  assert (Z : forall z, ko s (recv_item c (RErr z) s)) by (intro; now apply ko_recv_item).
  destruct (k_kind _); try apply Z. destruct l as [|i r]; [apply ko_refl|].
  assert (K : ko s (recv_item c i s)) by (apply ko_recv_item; [exact L|apply H; now left]).
  assert (K2 : ko s (proc_items m c r (recv_item c i s))).
  { eapply ko_trans; [exact K|]. pose proof (O_nc _ _ K). apply IH; [lia|]. rewrite (O_cf _ _ K). intros j J. apply H. now right. }
  destruct i; [apply Z|exact K2|exact K2].
Qed.
Lemma ko_proc_one p s : base <= nextc s -> (forall i, In i (snd p) -> item_may (cf s) i) -> ko s (proc_one s p).
Proof.
  intros L H. unfold proc_one. destruct p as [c l]. destruct (_ && _); [|apply ko_refl]. cbv zeta.
  pose proof (ko_proc_items (N.to_nat (x_loop (cf s))) c l s L H) as K. omvn K s1. ogo.
Qed.
Lemma ko_procs l : forall s, base <= nextc s -> (forall p i, In p l -> In i (snd p) -> item_may (cf s) i) -> ko s (fold_left proc_one l s).
Proof.
  induction l as [|p r IH]; intros s L H; cbn [fold_left]; [apply ko_refl|].
  assert (K : ko s (proc_one s p)) by (apply ko_proc_one; [exact L|]; intros i I; apply (H p); [now left|exact I]).
  eapply ko_trans; [exact K|]. pose proof (O_nc _ _ K). apply IH; [lia|]. rewrite (O_cf _ _ K). intros q j J. apply H. now right.
Qed.
Lemma ko_parent_op now s : base <= nextc s -> P (x_parent (cf s)) -> ko s (parent_op now s).
Proof.
  intros L H. unfold parent_op. destruct (_ && _); [|apply ko_refl].
  assert (G : ko s (let (s, r) := connect (x_parent (cf s)) s in
        if (r <? 0)%Z then set_popr (now + x_retry (cf s)) s else set_nst NConnecting (set_popr (now + x_first (cf s)) s))).
  { pose proof (ko_connect _ s L H) as K. destruct (connect (x_parent (cf s)) s) as [s1 r]. cbn [fst] in K. omvn K s2. ogo. }
  destruct (match parent s with Some p => ctrl_conn s p | None => None end); [|exact G].
  destruct (parent s) as [p|]; [|exact G]. ogo.
Qed.
Lemma ko_start now s : base <= nextc s -> P (x_parent (cf s)) -> ko s (fst (start now s)).
Proof.
  intros L H. unfold start. assert (K : ko s (set_sec now s)) by ogo. assert (C : cf (set_sec now s) = cf s) by reflexivity.
  assert (D : nextc (set_sec now s) = nextc s) by reflexivity.
  destruct (nst s); [apply ko_refl|..]; cbv zeta; refine (ko_trans s (set_sec now s) _ K _); set (s1 := set_sec now s) in *; clearbody s1; clear K;
    (destruct (_ && _); [|ogo]; destruct (parent s1); [ogo|];
     assert (K : ko s1 (fst (connect (x_parent (cf s1)) s1))) by (apply ko_connect; [lia|now rewrite C]);
     destruct (connect (x_parent (cf s1)) s1) as [s2 r]; cbn [fst] in K; omvn K s3; ogo).
Qed.
Lemma ko_poll l s : base <= nextc s -> (forall i, In i l -> io_may (cf s) i) -> ko s (poll l s).
Proof.
  intros L H. unfold poll. destruct (fl_shut s); [ogo|]. pose proof (ko_ios l s L H) as K. omvn K s1. ogo.
Qed.
Lemma ko_proc k now feed s s' : base <= nextc s -> P (x_parent (cf s)) -> (forall p i, In p feed -> In i (snd p) -> item_may (cf s) i) ->
  proc k now feed s = Some s' -> ko s s'.
Proof.
  intros L H M. unfold proc. cbv zeta. set (s1 := if sec s <? now then set_sec now s else s).
  assert (K : ko s s1) by (subst s1; ogo). intro X.
  refine (ko_trans _ _ _ K _). rewrite <- (O_cf _ _ K) in H, M. assert (L1 : base <= nextc s1) by (pose proof (O_nc _ _ K); lia).
  clearbody s1. clear K L. rename s1 into s2. revert X.
  set (s3 := parent_op now _). assert (K : ko s2 s3).
  { subst s3. pose proof (ko_procs feed s2 L1 M) as K. assert (K1 : ko s2 (sweep (length (connecting (fold_left proc_one feed s2))) now (fold_left proc_one feed s2))).
    { eapply ko_trans; [exact K|]. ogo. }
    eapply ko_trans; [exact K1|]. pose proof (O_nc _ _ K1). apply ko_parent_op; [lia|]. now rewrite (O_cf _ _ K1). }
  clearbody s3.
  assert (Y : forall s5, ping_loop k now None s3 = Some s5 -> ko s2 (stop_if_shut (collect (fst (dispatch_self s5))))).
  { intros s5 E. apply ko_ping_loop in E. omvn K s4. omvn E s6. ogo. }
  assert (Z : ko s2 (reset (fst (dispatch_self s2)))) by ogo.
  destruct (nst s2); [intros [= <-]; apply ko_refl|..];
    (destruct (fl_shut s2); [intros [= <-]; exact Z|]; destruct (ping_loop k now None s3) as [s5|]; [|discriminate]; intros [= <-]; auto).
Qed.
(** Every call but [init], which changes the configuration, not the connections. *)
Definition call_may (s : node) (ev : event) : Prop :=
  match ev with
  | EStart _ => P (x_parent (cf s))
  | EListen a | EConnect a | EConnectEp a _ => P a
  | EProc _ feed => P (x_parent (cf s)) /\ forall p i, In p feed -> In i (snd p) -> item_may (cf s) i
  | EPoll l => forall i, In i l -> io_may (cf s) i
  | EIo i => io_may (cf s) i
  | _ => True
  end.
Lemma ko_step k ev s s' : base <= nextc s -> call_may s ev -> step k ev s = Some s' -> (exists i x, ev = EInit i x) \/ ko s s'.
Proof.
  intros L H. unfold step, step_ret.
  destruct ev as [i x|now|a|a|a i|i|to ty b w q|to l q|z| |now feed|l|i|o l]; cbn [option_map fst]; [eauto| | | | | | | | | | | | |];
    try (intros [= <-]; right; solve [ogo | apply ko_set_salts]).
  - intros [= <-]. right. now apply ko_start.
  - intros [= <-]. right. now apply ko_listen.
  - intros [= <-]. right. now apply ko_connect.
  - intros [= <-]. right. destruct (get_endpoint s i); [now apply ko_connect_ep|apply ko_refl].
  - destruct (proc k now feed s) as [s1|] eqn:E; [|discriminate]. intros [= <-]. right. destruct H as [H M]. eapply ko_proc; eauto.
  - intros [= <-]. right. now apply ko_poll.
  - intros [= <-]. right. now apply ko_io_step.
Qed.
End Open.
