(** The fault counter of the parent is within the limit. *)
From Verif Require Import Base Subnet Route Address NodeTypes NodeConn NodeCore NodeMsg Node
  NodeFrame NodeReset NodeInv NodeKeep.
Local Open Scope N_scope.
Ltac Zify.zify_post_hook ::= idtac.

(** A node that counts more faults of its parent than it tolerates has given the parent up. *)
Definition calm (s : node) : Prop := my_id s <> 0 -> forall p, parent s = Some p ->
  e_ref p < nexte s /\ e_id p = e_id (d_ep (es s (e_ref p))) /\ d_fault (es s (e_ref p)) <= x_tol (cf s).
Definition kb (s s' : node) : Prop := calm s -> calm s'.
Lemma kb_refl s : kb s s. Proof. exact (fun H => H). Qed.
Lemma kb_trans s1 s2 s3 : kb s1 s2 -> kb s2 s3 -> kb s1 s3. Proof. unfold kb. auto. Qed.
Lemma kb_es s s' : cf s' = cf s -> self s' = self s -> parent s' = parent s -> nexte s' = nexte s ->
  (forall x, d_fault (es s' x) <= d_fault (es s x) /\ e_id (d_ep (es s' x)) = e_id (d_ep (es s x))) -> kb s s'.
Proof.
  intros C S P E F H M p Q. rewrite P in Q. destruct (H) with (p := p) as (A & B & D); [unfold my_id in *; now rewrite S in M|exact Q|].
  destruct (F (e_ref p)) as [F1 F2]. rewrite E, C, F2. split; [exact A|]. split; [exact B|lia].
Qed.
Lemma kb_same s s' : cf s' = cf s -> self s' = self s -> parent s' = parent s -> nexte s' = nexte s -> es s' = es s -> kb s s'.
Proof. intros C S P E F. apply kb_es; trivial. rewrite F. split; [lia|reflexivity]. Qed.

Create HintDb kb discriminated.
#[local] Hint Constants Opaque : kb.
#[local] Hint Variables Opaque : kb.
Ltac wmvn H v :=
  lazymatch type of H with
  | kb ?s ?s1 => refine (kb_trans s s1 _ H _); clear H; set (v := s1) in *; clearbody v
  end.
Ltac wmv H := let v := fresh "s" in wmvn H v.
Ltac wleaf := solve [eauto 3 with kb].
Ltac wg1 :=
  cbv beta;
  lazymatch goal with
  | |- kb ?s ?s => apply kb_refl
  | |- kb ?s (fst (let x := ?e in @?b x)) => wg_let s e ltac:(fun e' => change (kb s (fst (b e'))))
  | |- kb ?s (let x := ?e in @?b x) => wg_let s e ltac:(fun e' => change (kb s (b e')))
  | |- kb ?s (fst (fst (let x := ?e in @?b x))) => wg_let s e ltac:(fun e' => change (kb s (fst (fst (b e')))))
  | |- kb ?s (fst (fst (fst (let x := ?e in @?b x)))) => wg_let s e ltac:(fun e' => change (kb s (fst (fst (fst (b e'))))))
  | |- kb ?s (fst (fst (fst (match ?x with _ => _ end)))) => wg_case s x
  | |- kb ?s (fst (fst (match ?x with _ => _ end))) => wg_case s x
  | |- kb ?s (fst (match ?x with _ => _ end)) => wg_case s x
  | |- kb ?s (match ?x with _ => _ end) => wg_case s x
  | |- kb ?s (fst (fst (fst (?x, ?y)))) => change (kb s (fst (fst x)))
  | |- kb ?s (fst (fst (?x, ?y))) => change (kb s (fst x))
  | |- kb ?s (fst (?x, ?y)) => change (kb s x)
  | |- kb ?s (fst (fst (fst (?h ?t)))) => wg_at s t
  | |- kb ?s (fst (fst (?h ?t))) => wg_at s t
  | |- kb ?s (fst (?h ?t)) => wg_at s t
  | |- kb ?s (?g ?t) => wg_at s t
  end
with wg_at s t :=
  first [ constr_eq s t; wleaf
        | let H := fresh in assert (H : kb s t) by (repeat wg1); wmv H; wleaf ]
with wg_let s e k :=
  lazymatch type of e with
  | node =>
      first [ constr_eq s e; k s; cbv beta
            | let H := fresh in assert (H : kb s e) by (repeat wg1); k e; cbv beta; wmv H ]
  | _ => let v := fresh in set (v := e); k v; cbv beta; clearbody v
  end
with wg_case s x :=
  lazymatch type of x with
  | (node * _)%type =>
      let H := fresh in assert (H : kb s (fst x)) by (repeat wg1);
      let E := fresh "E" in destruct x as [? ?] eqn:E; cbn [fst] in H; clear E; wmv H
  | (node * _ * _)%type =>
      let H := fresh in assert (H : kb s (fst (fst x))) by (repeat wg1);
      let E := fresh "E" in destruct x as [[? ?] ?] eqn:E; cbn [fst] in H; clear E; wmv H
  | (node * _ * _ * _)%type =>
      let H := fresh in assert (H : kb s (fst (fst (fst x)))) by (repeat wg1);
      let E := fresh "E" in destruct x as [[[? ?] ?] ?] eqn:E; cbn [fst] in H; clear E; wmv H
  | _ => let E := fresh "E" in destruct x eqn:E in |- *
  end.
Ltac wgo := repeat wg1.
Ltac wframe := intros; apply kb_same; first [reflexivity | fr1].
Lemma kb_set_nst v s : kb s (set_nst v s). Proof. now apply kb_same. Qed.
#[local] Hint Resolve kb_set_nst : kb.
Lemma kb_set_parent s : kb s (set_parent None s). Proof. intros _ _ p X. discriminate X. Qed.
#[local] Hint Resolve kb_set_parent : kb.
Lemma kb_set_routes v s : kb s (set_routes v s). Proof. now apply kb_same. Qed.
#[local] Hint Resolve kb_set_routes : kb.
Lemma kb_set_fl_act v s : kb s (set_fl_act v s). Proof. now apply kb_same. Qed.
#[local] Hint Resolve kb_set_fl_act : kb.
Lemma kb_set_fl_preg v s : kb s (set_fl_preg v s). Proof. now apply kb_same. Qed.
#[local] Hint Resolve kb_set_fl_preg : kb.
Lemma kb_set_fl_shut v s : kb s (set_fl_shut v s). Proof. now apply kb_same. Qed.
#[local] Hint Resolve kb_set_fl_shut : kb.
Lemma kb_set_popr v s : kb s (set_popr v s). Proof. now apply kb_same. Qed.
#[local] Hint Resolve kb_set_popr : kb.
Lemma kb_set_connecting v s : kb s (set_connecting v s). Proof. now apply kb_same. Qed.
#[local] Hint Resolve kb_set_connecting : kb.
Lemma kb_set_pings v s : kb s (set_pings v s). Proof. now apply kb_same. Qed.
#[local] Hint Resolve kb_set_pings : kb.
Lemma kb_set_pend v s : kb s (set_pend v s). Proof. now apply kb_same. Qed.
#[local] Hint Resolve kb_set_pend : kb.
Lemma kb_set_lpend v s : kb s (set_lpend v s). Proof. now apply kb_same. Qed.
#[local] Hint Resolve kb_set_lpend : kb.
Lemma kb_set_gce v s : kb s (set_gce v s). Proof. now apply kb_same. Qed.
#[local] Hint Resolve kb_set_gce : kb.
Lemma kb_set_gcc v s : kb s (set_gcc v s). Proof. now apply kb_same. Qed.
#[local] Hint Resolve kb_set_gcc : kb.
Lemma kb_set_procs v s : kb s (set_procs v s). Proof. now apply kb_same. Qed.
#[local] Hint Resolve kb_set_procs : kb.
Lemma kb_set_seqn v s : kb s (set_seqn v s). Proof. now apply kb_same. Qed.
#[local] Hint Resolve kb_set_seqn : kb.
Lemma kb_set_qdata v s : kb s (set_qdata v s). Proof. now apply kb_same. Qed.
#[local] Hint Resolve kb_set_qdata : kb.
Lemma kb_set_qcmd v s : kb s (set_qcmd v s). Proof. now apply kb_same. Qed.
#[local] Hint Resolve kb_set_qcmd : kb.
Lemma kb_set_orc v s : kb s (set_orc v s). Proof. now apply kb_same. Qed.
#[local] Hint Resolve kb_set_orc : kb.
Lemma kb_set_salts v s : kb s (set_salts v s). Proof. now apply kb_same. Qed.
#[local] Hint Resolve kb_set_salts : kb.
Lemma kb_set_cs v s : kb s (set_cs v s). Proof. now apply kb_same. Qed.
#[local] Hint Resolve kb_set_cs : kb.
Lemma kb_set_nextc v s : kb s (set_nextc v s). Proof. now apply kb_same. Qed.
#[local] Hint Resolve kb_set_nextc : kb.
Lemma kb_set_self s : kb s (set_self None s). Proof. intros _ M. now elim M. Qed.
#[local] Hint Resolve kb_set_self : kb.
Lemma kb_set_fl_reset v s : kb s (set_fl_reset v s). Proof. now apply kb_same. Qed.
#[local] Hint Resolve kb_set_fl_reset : kb.
Lemma kb_set_fl_gcreset v s : kb s (set_fl_gcreset v s). Proof. now apply kb_same. Qed.
#[local] Hint Resolve kb_set_fl_gcreset : kb.
Lemma kb_set_fl_self v s : kb s (set_fl_self v s). Proof. now apply kb_same. Qed.
#[local] Hint Resolve kb_set_fl_self : kb.
Lemma kb_set_fl_gce v s : kb s (set_fl_gce v s). Proof. now apply kb_same. Qed.
#[local] Hint Resolve kb_set_fl_gce : kb.
Lemma kb_set_fl_gcc v s : kb s (set_fl_gcc v s). Proof. now apply kb_same. Qed.
#[local] Hint Resolve kb_set_fl_gcc : kb.
Lemma kb_set_sec v s : kb s (set_sec v s). Proof. now apply kb_same. Qed.
#[local] Hint Resolve kb_set_sec : kb.
Lemma kb_on_e e f s : (forall d, d_fault (f d) <= d_fault d /\ e_id (d_ep (f d)) = e_id (d_ep d)) -> kb s (on_e e f s).
Proof.
  intro F. apply kb_es; try reflexivity. intro x. rewrite es_on_e. destruct (N.eqb_spec x e) as [->|]; [apply F|]. split; [lia|reflexivity].
Qed.
Ltac wone := apply kb_on_e; intro d; cbn [d_fault d_ep set_d_ctrl set_d_data set_d_listen set_d_lfd set_d_timer set_d_created set_d_fault set_d_ping];
  (split; [first [apply N.le_refl|apply N.le_0_l]|reflexivity]).
#[local] Hint Extern 1 (kb _ (on_e _ _ _)) => wone : kb.
Lemma kb_on_c c f s : kb s (on_c c f s). Proof. wframe. Qed.
#[local] Hint Resolve kb_on_c : kb.
Lemma kb_emit t s : kb s (emit t s). Proof. wframe. Qed.
#[local] Hint Resolve kb_emit : kb.
Lemma kb_rm_timer c s : kb s (rm_timer c s). Proof. wframe. Qed.
#[local] Hint Resolve kb_rm_timer : kb.
Lemma kb_set_status c v s : kb s (set_status c v s). Proof. wframe. Qed.
#[local] Hint Resolve kb_set_status : kb.
Lemma kb_shutdown z s : kb s (shutdown z s). Proof. wframe. Qed.
#[local] Hint Resolve kb_shutdown : kb.
Lemma kb_fatal_shutdown z s : kb s (fatal_shutdown z s). Proof. wframe. Qed.
#[local] Hint Resolve kb_fatal_shutdown : kb.
Lemma kb_on_actived  s : kb s (on_actived  s). Proof. wframe. Qed.
#[local] Hint Resolve kb_on_actived : kb.
Lemma kb_on_disconnect c s : kb s (on_disconnect c s). Proof. wframe. Qed.
#[local] Hint Resolve kb_on_disconnect : kb.
Lemma kb_rm_proc a s : kb s (rm_proc a s). Proof. wframe. Qed.
#[local] Hint Resolve kb_rm_proc : kb.
Lemma kb_add_proc c s : kb s (add_proc c s). Proof. wframe. Qed.
#[local] Hint Resolve kb_add_proc : kb.
Lemma kb_add_timer c s : kb s (add_timer c s). Proof. wframe. Qed.
#[local] Hint Resolve kb_add_timer : kb.
Lemma kb_gc_conn c s : kb s (gc_conn c s). Proof. wframe. Qed.
#[local] Hint Resolve kb_gc_conn : kb.
Lemma kb_gc_ep e s : kb s (gc_ep e s). Proof. wframe. Qed.
#[local] Hint Resolve kb_gc_ep : kb.
Lemma kb_disconnect c s : kb s (disconnect c s). Proof. wframe. Qed.
#[local] Hint Resolve kb_disconnect : kb.
Lemma kb_conn_close c s : kb s (conn_close c s). Proof. wframe. Qed.
#[local] Hint Resolve kb_conn_close : kb.
Lemma kb_clear_ping e s : kb s (clear_ping e s). Proof. unfold clear_ping. wgo. Qed.
#[local] Hint Resolve kb_clear_ping : kb.
Lemma kb_insert_ping e s : kb s (insert_ping e s). Proof. unfold insert_ping. wgo. Qed.
#[local] Hint Resolve kb_insert_ping : kb.
Lemma kb_add_ping e s : kb s (add_ping e s). Proof. unfold add_ping. wgo. Qed.
#[local] Hint Resolve kb_add_ping : kb.
Lemma kb_ep_reset b g e s : kb s (ep_reset b g e s).
Proof.
  apply kb_es; try fr1. intro x. rewrite es_ep_reset. destruct (N.eqb_spec x e) as [->|]; (split; [apply N.le_refl|reflexivity]).
Qed.
#[local] Hint Resolve kb_ep_reset : kb.
Lemma kb_conn_fin c s : kb s (conn_fin c s). Proof. wframe. Qed.
#[local] Hint Resolve kb_conn_fin : kb.
Lemma kb_conn_reset c s : kb s (conn_reset c s). Proof. unfold conn_reset. wgo. Qed.
#[local] Hint Resolve kb_conn_reset : kb.
Lemma kb_ep_drop e s : kb s (ep_drop e s). Proof. unfold ep_drop. wgo. Qed.
#[local] Hint Resolve kb_ep_drop : kb.
Lemma kb_conn_drop c s : kb s (conn_drop c s). Proof. unfold conn_drop. wgo. Qed.
#[local] Hint Resolve kb_conn_drop : kb.
Lemma kb_add_listen e a s : kb s (add_listen e a s).
Proof.
  unfold add_listen. destruct a; [apply kb_refl|]. apply kb_on_e. intro d. destruct (is_simplex _); cbn; (split; [apply N.le_refl|reflexivity]).
Qed.
#[local] Hint Resolve kb_add_listen : kb.
Lemma kb_written c z n s : kb s (written c z n s). Proof. wframe. Qed.
#[local] Hint Resolve kb_written : kb.
Lemma kb_conn_fault c s : kb s (conn_fault c s). Proof. unfold conn_fault. wgo. Qed.
#[local] Hint Resolve kb_conn_fault : kb.
Lemma kb_conn_create  s : kb s (fst (conn_create  s)). Proof. wframe. Qed.
#[local] Hint Resolve kb_conn_create : kb.
Lemma kb_ep_create i u p h s : kb s (fst (ep_create i u p h s)).
Proof.
  unfold ep_create. cbn [fst]. refine (kb_trans _ _ _ _ (kb_insert_ping _ _)). intros H M q Q. destruct (H M q Q) as (A & B & D). cbn. unfold upd.
  destruct (N.eqb_spec (e_ref q) (nexte s)) as [E|]; [lia|]. split; [lia|]. split; [exact B|exact D].
Qed.
#[local] Hint Resolve kb_ep_create : kb.
Lemma kb_add_connection e c b s : kb s (fst (add_connection e c b s)). Proof. unfold add_connection. wgo. Qed.
#[local] Hint Resolve kb_add_connection : kb.
Lemma kb_created e s : kb s (fst (created e s)). Proof. unfold created. wgo. Qed.
#[local] Hint Resolve kb_created : kb.
Lemma kb_alloc_seq  s : kb s (fst (alloc_seq  s)). Proof. wframe. Qed.
#[local] Hint Resolve kb_alloc_seq : kb.
Lemma kb_take_orc  s : kb s (fst (take_orc  s)). Proof. wframe. Qed.
#[local] Hint Resolve kb_take_orc : kb.
Lemma kb_take_salt  s : kb s (fst (take_salt  s)). Proof. wframe. Qed.
#[local] Hint Resolve kb_take_salt : kb.
Lemma kb_push c m s : kb s (fst (push c m s)). Proof. wframe. Qed.
#[local] Hint Resolve kb_push : kb.
Lemma kb_send_on c m s : kb s (fst (send_on c m s)). Proof. wframe. Qed.
#[local] Hint Resolve kb_send_on : kb.
(** The new parent is an endpoint without faults. *)
Definition spotless (e : ep) (s : node) : Prop := e_ref e < nexte s /\ d_ep (es s (e_ref e)) = e /\ d_fault (es s (e_ref e)) = 0.
Lemma spotless_new i u p h s : spotless (snd (ep_create i u p h s)) (fst (ep_create i u p h s)).
Proof.
  unfold ep_create, spotless. cbn [fst snd]. set (x := {| e_ref := _; e_id := _; e_subs := _ |}). set (s1 := set_nexte _ _).
  assert (E : nexte (insert_ping x s1) = nexte s1) by fr1. rewrite E.
  assert (F : d_ep (es (insert_ping x s1) (e_ref x)) = d_ep (es s1 (e_ref x)) /\ d_fault (es (insert_ping x s1) (e_ref x)) = d_fault (es s1 (e_ref x))).
  { unfold insert_ping. destruct (_ || _); [now split|]. rewrite es_on_e, N.eqb_refl. now split. }
  destruct F as [-> ->]. subst s1 x. cbn. unfold upd. rewrite N.eqb_refl. cbn. split; [lia|]. now split.
Qed.
Lemma kb_add_endpoint e s : spotless e s -> kb s (fst (add_endpoint e s)).
Proof.
  intros (S1 & S2 & S3). unfold add_endpoint. destruct (fl_reset s); [apply kb_refl|]. destruct (_ && _); [|destruct (_ && _ && _); [apply kb_refl|wgo]].
  destruct (parent s); [apply kb_refl|]. cbv zeta. cbn [fst]. refine (kb_trans _ _ _ _ (kb_emit _ _)).
  assert (K : kb s (set_parent (Some e) s)).
  { intros _ _ p X. injection X as <-. cbn [nexte es cf set_parent]. rewrite S2, S3. split; [exact S1|]. split; [reflexivity|lia]. }
  refine (kb_trans _ _ _ K _). generalize (set_parent (Some e) s). intro s1. wgo.
Qed.
Lemma kb_remove_endpoint i x s : kb s (fst (remove_endpoint i x s)). Proof. unfold remove_endpoint. wgo. Qed.
#[local] Hint Resolve kb_remove_endpoint : kb.
Lemma kb_ep_fault e s : kb s (fst (ep_fault e s)).
Proof.
  unfold ep_fault. cbv zeta. set (s0 := on_e e _ s). set (s1 := emit _ s0).
  assert (F : forall x, es s1 x = if x =? e then set_d_fault (d_fault (es s e) + 1) (es s e) else es s x) 
    by (intro x; change (es s1 x) with (es s0 x); subst s0; rewrite es_on_e; now destruct (N.eqb_spec x e) as [->|]).
  assert (C : cf s1 = cf s) by reflexivity. assert (P : parent s1 = parent s) by reflexivity. assert (S : self s1 = self s) by reflexivity.
  assert (X : nexte s1 = nexte s) by reflexivity. clearbody s1. clear s0.
  destruct (N.ltb_spec (x_tol (cf s1)) (d_fault (es s1 e))) as [L|L]; cbn [fst]; intros H.
  - assert (K : match parent s with Some p => (e_ref p =? e) && negb (my_id s =? 0) | None => false end = true \/
                match parent s with Some p => (e_ref p =? e) && negb (my_id s =? 0) | None => false end = false) by (now destruct (match parent s with Some _ => _ | None => _ end); [left|right]).
    destruct (parent s) as [p|] eqn:PS.
    + destruct K as [K|K].
      * apply andb_true_iff in K as [K1 K2]. apply N.eqb_eq in K1. apply negb_true_iff in K2. pose proof K2 as K3. apply N.eqb_neq in K3.
        destruct (H K3 p PS) as (_ & H2 & _). unfold remove_endpoint, is_parent. assert (M : my_id s1 = my_id s) by (unfold my_id; now rewrite S).
        rewrite M, K2, P. rewrite F, N.eqb_refl. cbn [d_ep set_d_fault]. rewrite K1 in H2. rewrite <- H2, N.eqb_refl. cbv zeta. cbn [fst].
        set (s2 := emit _ _). assert (Q : parent s2 = None) by reflexivity. clearbody s2.
        destruct (fl_act s2); intros _ q Z; [congruence|]. assert (W : parent (fatal_shutdown E_MASK_CONFLICT s2) = parent s2) by fr1. congruence.
      * apply kb_remove_endpoint. intros M q Q. rewrite P in Q. injection Q as <-. assert (M' : my_id s <> 0) by (unfold my_id in *; now rewrite S in M).
        destruct (H M' p PS) as (H1 & H2 & H3). apply N.eqb_neq in M'. rewrite M' in K. cbn [negb] in K. rewrite andb_true_r in K.
        rewrite F, K, C, X. auto.
    + apply kb_remove_endpoint. intros M q Q. congruence.
  - intros M q Q. rewrite P in Q. assert (M' : my_id s <> 0) by (unfold my_id in *; now rewrite S in M).
    destruct (H M' q Q) as (H1 & H2 & H3). rewrite X. split; [exact H1|]. rewrite C. rewrite C in L. rewrite F in *. rewrite N.eqb_refl in L.
    destruct (N.eqb_spec (e_ref q) e) as [E|]; [|auto]. cbn [d_ep d_fault set_d_fault] in *. rewrite <- E in *. auto.
Qed.
#[local] Hint Resolve kb_ep_fault : kb.

Lemma kb_gen_keys ts : forall s, kb s (fst (gen_keys ts s)).
Proof. induction ts as [|t r IH]; intro s; cbn [gen_keys]; wgo. Qed.
#[local] Hint Resolve kb_gen_keys : kb.
Lemma kb_send_reg rsp c z q s : kb s (fst (send_reg rsp c z q s)). Proof. unfold send_reg. wgo. Qed.
#[local] Hint Resolve kb_send_reg : kb.
Lemma kb_send_ping c q s : kb s (fst (send_ping c q s)). Proof. unfold send_ping. wgo. Qed.
#[local] Hint Resolve kb_send_ping : kb.
Lemma kb_on_new_connection c s : kb s (on_new_connection c s). Proof. unfold on_new_connection. wgo. Qed.
#[local] Hint Resolve kb_on_new_connection : kb.
Lemma kb_number m s : kb s (fst (number m s)). Proof. unfold number. wgo. Qed.
#[local] Hint Resolve kb_number : kb.
Lemma kb_post d i m s : kb s (fst (post d i m s)). Proof. unfold post. wgo. Qed.
#[local] Hint Resolve kb_post : kb.
Lemma kb_send_cmd_rsp oc d t z q f s : kb s (fst (send_cmd_rsp oc d t z q f s)). Proof. unfold send_cmd_rsp. wgo. Qed.
#[local] Hint Resolve kb_send_cmd_rsp : kb.
Lemma kb_cmd_req oc h q s : kb s (fst (cmd_req oc h q s)). Proof. unfold cmd_req. wgo. Qed.
#[local] Hint Resolve kb_cmd_req : kb.
Lemma kb_cmd_rsp oc h q s : kb s (fst (cmd_rsp oc h q s)). Proof. unfold cmd_rsp. wgo. Qed.
#[local] Hint Resolve kb_cmd_rsp : kb.
Lemma kb_self_data m s : kb s (self_data m s). Proof. unfold self_data. wgo. Qed.
#[local] Hint Resolve kb_self_data : kb.
Lemma kb_self_cmd m s : kb s (self_cmd m s). Proof. unfold self_cmd. wgo. Qed.
#[local] Hint Resolve kb_self_cmd : kb.
Lemma kb_data_loop n : forall s, kb s (fst (fst (self_data_loop n s))).
Proof. induction n as [|n IH]; intro s; cbn [self_data_loop]; wgo. Qed.
Lemma kb_cmd_loop n : forall s, kb s (fst (self_cmd_loop n s)).
Proof. induction n as [|n IH]; intro s; cbn [self_cmd_loop]; wgo. Qed.
#[local] Hint Resolve kb_data_loop kb_cmd_loop : kb.
Lemma kb_dispatch_self s : kb s (fst (dispatch_self s)).
Proof.
  unfold dispatch_self. destruct (fl_self s) eqn:F; [apply kb_refl|]. cbv zeta.
  set (n := if x_loop _ =? 0 then _ else _). clearbody n.
  pose proof (kb_data_loop n (set_fl_self true s)) as K1.
  destruct (self_data_loop n (set_fl_self true s)) as [[s1 r] k]. cbn [fst] in K1.
  pose proof (kb_cmd_loop r s1) as K2. destruct (self_cmd_loop r s1) as [s2 k2]. cbn [fst] in *.
  refine (kb_trans _ _ _ (kb_set_fl_self true s) (kb_trans _ _ _ K1 (kb_trans _ _ _ K2 (kb_set_fl_self false s2)))).
Qed.
#[local] Hint Resolve kb_dispatch_self : kb.
Lemma kb_send_to d i m s : kb s (fst (send_to d i m s)). Proof. unfold send_to. wgo. Qed.
#[local] Hint Resolve kb_send_to : kb.
Lemma kb_conn_connect c a s : kb s (fst (conn_connect c a s)). Proof. unfold conn_connect. wgo. Qed.
#[local] Hint Resolve kb_conn_connect : kb.
Lemma kb_connect a s : kb s (fst (connect a s)). Proof. unfold connect. wgo. Qed.
#[local] Hint Resolve kb_connect : kb.
Lemma kb_connect_ep a e s : kb s (fst (connect_ep a e s)). Proof. unfold connect_ep. wgo. Qed.
#[local] Hint Resolve kb_connect_ep : kb.
Lemma kb_listen_cb c z s : kb s (listen_cb c z s). Proof. unfold listen_cb. wgo. Qed.
#[local] Hint Resolve kb_listen_cb : kb.
Lemma kb_conn_listen c a s : kb s (fst (conn_listen c a s)). Proof. unfold conn_listen. wgo. Qed.
#[local] Hint Resolve kb_conn_listen : kb.
Lemma kb_listen a s : kb s (fst (listen a s)). Proof. unfold listen. wgo. Qed.
#[local] Hint Resolve kb_listen : kb.
Lemma kb_connected_cb c z s : kb s (connected_cb c z s). Proof. unfold connected_cb. wgo. Qed.
#[local] Hint Resolve kb_connected_cb : kb.
Lemma kb_listened c z s : kb s (listened c z s). Proof. unfold listened. wgo. Qed.
#[local] Hint Resolve kb_listened : kb.
Lemma kb_accept_failed s : kb s (accept_failed s). Proof. unfold accept_failed. wgo. Qed.
#[local] Hint Resolve kb_accept_failed : kb.
Lemma kb_accepted a s : kb s (accepted a s). Proof. unfold accepted. wgo. Qed.
#[local] Hint Resolve kb_accepted : kb.
Lemma kb_peer_closed c s : kb s (peer_closed c s). Proof. unfold peer_closed. wgo. Qed.
#[local] Hint Resolve kb_peer_closed : kb.
Lemma kb_node_disconnect i s : kb s (fst (node_disconnect i s)). Proof. unfold node_disconnect. wgo. Qed.
#[local] Hint Resolve kb_node_disconnect : kb.
Lemma kb_transfer_rsp h w z s : kb s (fst (transfer_rsp h w z s)). Proof. unfold transfer_rsp. wgo. Qed.
#[local] Hint Resolve kb_transfer_rsp : kb.
Lemma kb_forward r h w f t s : kb s (fst (fst (fst (forward r h w f t s)))). Proof. unfold forward. wgo. Qed.
#[local] Hint Resolve kb_forward : kb.
Lemma kb_connect_sync x y s : kb s (fst (connect_sync x y s)). Proof. unfold connect_sync. wgo. Qed.
#[local] Hint Resolve kb_connect_sync : kb.
Lemma kb_data_req c h w s : kb s (fst (data_req c h w s)). Proof. unfold data_req. wgo. Qed.
#[local] Hint Resolve kb_data_req : kb.
Lemma kb_data_rsp c h w s : kb s (fst (data_rsp c h w s)). Proof. unfold data_rsp. wgo. Qed.
#[local] Hint Resolve kb_data_rsp : kb.
Lemma kb_sync_msg r c h s : kb s (fst (sync_msg r c h s)). Proof. unfold sync_msg. wgo. Qed.
#[local] Hint Resolve kb_sync_msg : kb.
Lemma kb_reg_deny c z q s : kb s (fst (reg_deny c z q s)). Proof. unfold reg_deny. wgo. Qed.
#[local] Hint Resolve kb_reg_deny : kb.
Lemma kb_open_channels e can l : forall has s, kb s (fst (open_channels e can l has s)).
Proof. induction l as [|x r IH]; intros has s; cbn [open_channels]; wgo. Qed.
#[local] Hint Resolve kb_open_channels : kb.
Lemma kb_welcome c e r s : kb s (welcome c e r s). Proof. unfold welcome. wgo. Qed.
#[local] Hint Resolve kb_welcome : kb.
Lemma kb_reg_body c r s : kb s (fst (reg_body c r s)).
Proof.
  unfold reg_body. destruct (is_connected s c); [wgo|]. destruct (r_id r =? 0); [wgo|]. destruct (get_endpoint s (r_id r)); [wgo|].
  destruct (reg_confs _ _) as [confs|]; [|wgo]. destruct (_ && _); [wgo|]. destruct (endpoint_subnets _ _) as [subs|]; [|wgo].
  pose proof (kb_ep_create (r_id r) subs (r_pid r) (r_host r) s) as K. pose proof (spotless_new (r_id r) subs (r_pid r) (r_host r) s) as SP.
  destruct (ep_create _ _ _ _ s) as [s1 e]. cbn [fst snd] in *. cbv zeta. refine (kb_trans _ _ _ K _). clear K.
  match goal with |- context [negb (?b =? E_OK)%Z] => set (bad := b); clearbody bad end.
  destruct (negb _); [wgo|]. pose proof (kb_add_endpoint e s1 SP) as K. destruct (add_endpoint e s1) as [s2 res]. cbn [fst] in K.
  refine (kb_trans _ _ _ K _). wgo.
Qed.
#[local] Hint Resolve kb_reg_body : kb.
Lemma kb_reg_req c h r s : kb s (fst (reg_req c h r s)). Proof. unfold reg_req. wgo. Qed.
#[local] Hint Resolve kb_reg_req : kb.
Lemma kb_parent_reg_done  s : kb s (parent_reg_done  s). Proof. unfold parent_reg_done. wgo. Qed.
#[local] Hint Resolve kb_parent_reg_done : kb.
Lemma kb_reg_rsp c h r s : kb s (fst (reg_rsp c h r s)). Proof. unfold reg_rsp. wgo. Qed.
#[local] Hint Resolve kb_reg_rsp : kb.
Lemma kb_conn_syn c h a s : kb s (fst (conn_syn c h a s)). Proof. unfold conn_syn. wgo. Qed.
#[local] Hint Resolve kb_conn_syn : kb.
Lemma kb_ping_msg c h t s : kb s (fst (ping_msg c h t s)). Proof. unfold ping_msg. wgo. Qed.
#[local] Hint Resolve kb_ping_msg : kb.
Lemma kb_pong_msg c h t s : kb s (fst (pong_msg c h t s)). Proof. unfold pong_msg. wgo. Qed.
#[local] Hint Resolve kb_pong_msg : kb.
Lemma kb_fault_of c s : kb s (fault_of c s). Proof. unfold fault_of. wgo. Qed.
#[local] Hint Resolve kb_fault_of : kb.
Lemma kb_dispatch_msg c m s : kb s (fst (dispatch_msg c m s)).
Proof. unfold dispatch_msg. wgo. Qed.
#[local] Hint Resolve kb_dispatch_msg : kb.
Lemma kb_on_recv c m s : kb s (on_recv c m s). Proof. unfold on_recv. wgo. Qed.
#[local] Hint Resolve kb_on_recv : kb.
Lemma kb_recv_item c i s : kb s (recv_item c i s). Proof. destruct i as [z|n|n m]; cbn [recv_item]; wgo. Qed.
#[local] Hint Resolve kb_recv_item : kb.
Lemma kb_fold {A} (f : node -> A -> node) : (forall s x, kb s (f s x)) -> forall l s, kb s (fold_left f l s).
Proof. intros F l. induction l as [|x r IH]; intro s; cbn [fold_left]; [apply kb_refl|]. eapply kb_trans; [apply F|apply IH]. Qed.
Lemma kb_sweep n now : forall s, kb s (sweep n now s).
Proof. induction n as [|n IH]; intro s; cbn [sweep]; wgo. Qed.
#[local] Hint Resolve kb_sweep : kb.
Lemma kb_fault_drop h e s : kb s (fst (fault_drop h e s)). Proof. unfold fault_drop. wgo. Qed.
#[local] Hint Resolve kb_fault_drop : kb.
Lemma kb_ping_endpoint h e s : kb s (fst (ping_endpoint h e s)).
Proof. unfold ping_endpoint. wgo. Qed.
#[local] Hint Resolve kb_ping_endpoint : kb.
Lemma kb_idle_out n e s : kb s (fst (idle_out n e s)). Proof. unfold idle_out. wgo. Qed.
#[local] Hint Resolve kb_idle_out : kb.
Lemma kb_parent_op n s : kb s (parent_op n s). Proof. unfold parent_op. wgo. Qed.
#[local] Hint Resolve kb_parent_op : kb.
Lemma kb_release nx s : kb s (release nx s). Proof. unfold release. wgo. Qed.
#[local] Hint Resolve kb_release : kb.
Lemma kb_ping_loop now n : forall nx s s', ping_loop n now nx s = Some s' -> kb s s'.
Proof.
  induction n as [|n IH]; intros nx s s' X; cbn [ping_loop] in X; [discriminate|].
  destruct (pings s) as [|[t e1] l]; [injection X as <-; apply kb_release|].
  destruct (now <? t); [injection X as <-; apply kb_release|]. cbv zeta in X.
  set (e := match nx with Some e => e | None => e1 end) in X.
  pose proof (kb_idle_out now e s) as K. destruct (idle_out now e s) as [s1 out]. cbn [fst] in K. wmvn K s2.
  destruct out.
  - apply IH in X. refine (kb_trans _ _ _ _ X). wgo.
  - set (s3 := if match parent s2 with Some p => e_ref p =? e | None => false end then s2 else fst (ping_endpoint true e s2)) in X.
    assert (K : kb s2 s3) by (unfold s3; destruct (match parent s2 with Some p => _ | None => _ end); wgo).
    clearbody s3. wmvn K s5.
    set (s4 := add_ping (d_ep (es s5 e)) s5) in X.
    assert (K : kb s5 s4) by (unfold s4; wgo). clearbody s4. wmvn K s6.
    destruct (pings s6) as [|[t2 e2] r]; [injection X as <-; wgo|].
    destruct (now <? t2); [injection X as <-; wgo|].
    destruct (negb (t2 =? t)); [|destruct (e2 =? e)]; apply IH in X; refine (kb_trans _ _ _ _ X); wgo.
Qed.
Lemma kb_gc_one s x : kb s (gc_one s x).
Proof. unfold gc_one. wgo. Qed.
Lemma kb_drop_ep s e : kb s (drop_ep s e). Proof. apply kb_ep_drop. Qed.
Lemma kb_collect s : kb s (collect s).
Proof.
  unfold collect. cbv zeta.
  set (s1 := match gce s with [] => s | _ => _ end).
  assert (K : kb s s1).
  { subst s1. destruct (gce s) as [|x l]; [apply kb_refl|]. set (l1 := x :: l). clearbody l1.
    refine (kb_trans _ _ _ _ (kb_set_fl_gce _ _)). refine (kb_trans _ _ _ _ (kb_fold drop_ep kb_drop_ep _ _)).
    refine (kb_trans _ _ _ _ (kb_set_gce _ _)). refine (kb_trans _ _ _ _ (kb_fold gc_one kb_gc_one _ _)).
    refine (kb_trans _ _ _ _ (kb_set_fl_gce _ _)). apply kb_set_gce. }
  clearbody s1. refine (kb_trans _ _ _ K _). destruct (gcc s1) as [|c l]; [apply kb_refl|]. set (l1 := c :: l). clearbody l1.
  refine (kb_trans _ _ _ _ (kb_set_fl_gcc _ _)). refine (kb_trans _ _ _ _ (kb_fold (fun s c => conn_drop c s) (fun s c => kb_conn_drop c s) _ _)).
  refine (kb_trans _ _ _ _ (kb_set_gcc _ _)). apply kb_set_fl_gcc.
Qed.
Lemma kb_send_data a b c d e s : kb s (fst (send_data a b c d e s)). Proof. unfold send_data. wgo. Qed.
#[local] Hint Resolve kb_send_data : kb.
Lemma kb_send_custom a b c s : kb s (fst (send_custom a b c s)). Proof. unfold send_custom. wgo. Qed.
#[local] Hint Resolve kb_send_custom : kb.
Lemma kb_drain n : forall s, kb s (drain n s).
Proof.
  induction n as [|n IH]; intro s; cbn [drain]; [apply kb_refl|]. pose proof (kb_dispatch_self s) as K.
  destruct (dispatch_self s) as [s1 k]. cbn [fst] in K. destruct k; [exact K|]. exact (kb_trans _ _ _ K (IH s1)).
Qed.
Lemma kb_drop_connecting n : forall s, kb s (drop_connecting n s).
Proof. induction n as [|n IH]; intro s; cbn [drop_connecting]; wgo. Qed.
Lemma kb_finish_connects l : forall s, kb s (finish_connects l s).
Proof. induction l as [|c l IH]; intro s; cbn [finish_connects]; wgo. Qed.
Lemma kb_finish_listens l : forall s, kb s (finish_listens l s).
Proof. induction l as [|c l IH]; intro s; cbn [finish_listens]; wgo. Qed.
#[local] Hint Resolve kb_drain kb_drop_connecting kb_finish_connects kb_finish_listens : kb.
Lemma kb_reset s : kb s (reset s).
Proof.
  unfold reset. destruct (fl_reset s); [apply kb_refl|]. cbv zeta.
  refine (kb_trans _ _ _ (kb_set_fl_reset true s) _). set (s0 := set_fl_reset true s). clearbody s0.
  refine (kb_trans _ _ _ (kb_emit TBegin s0) _). set (s1 := emit TBegin s0). clearbody s1.
  match goal with |- context [drain ?n s1] => refine (kb_trans _ _ _ (kb_drain n s1) _); set (s2 := drain n s1); clearbody s2 end.
  refine (kb_trans _ _ _ (kb_fold (fun s p => conn_reset (snd p) s) (fun s p => kb_conn_reset (snd p) s) (procs s2) s2) _).
  set (s3 := fold_left _ _ s2). clearbody s3.
  refine (kb_trans _ _ _ (kb_set_procs [] s3) _). set (s4 := set_procs [] s3). clearbody s4.
  set (s5 := match parent s4 with Some p => _ | None => _ end). assert (K : kb s4 s5) by (subst s5; wgo).
  clearbody s5. refine (kb_trans _ _ _ K _). clear K.
  refine (kb_trans _ _ _ (kb_set_routes [] s5) _).
  refine (kb_trans _ _ _ (kb_fold (fun s e => emit (TRemoved e) s) (fun s e => kb_emit _ s) (map (fun p => e_ref (snd p)) (routes s5)) _) _).
  set (s6 := fold_left (fun s e => emit _ s) _ _). clearbody s6.
  refine (kb_trans _ _ _ (kb_fold drop_ep kb_drop_ep (map (fun p => e_ref (snd p)) (routes s5)) s6) _).
  set (s7 := fold_left drop_ep _ s6). clearbody s7.
  refine (kb_trans _ _ _ (kb_drop_connecting (length (connecting s7)) s7) _). set (s8 := drop_connecting _ s7). clearbody s8.
  set (s9 := match self s8 with Some p => _ | None => _ end). assert (K : kb s8 s9) by (subst s9; wgo).
  clearbody s9. refine (kb_trans _ _ _ K _). clear K.
  refine (kb_trans _ _ _ (kb_set_fl_gcreset true s9) _). set (s10 := set_fl_gcreset true s9). clearbody s10.
  refine (kb_trans _ _ _ (kb_set_gce [] s10) _).
  refine (kb_trans _ _ _ (kb_fold drop_ep kb_drop_ep (map e_ref (gce s10)) (set_gce [] s10)) _).
  set (s11 := fold_left drop_ep _ _). clearbody s11.
  refine (kb_trans _ _ _ (kb_set_gcc [] s11) _). set (s12 := set_gcc [] s11). clearbody s12.
  assert (F : forall s (p : N * N), kb s (clear_ping (snd p) (ep_reset None false (snd p) s))) by (intros; wgo).
  refine (kb_trans _ _ _ (kb_fold _ F (pings s12) s12) _). set (s13 := fold_left _ _ s12). clearbody s13.
  refine (kb_trans _ _ _ (kb_set_pings [] s13) _). set (s14 := set_pings [] s13). clearbody s14.
  refine (kb_trans _ _ _ (kb_finish_connects (pend s14) s14) _). set (s15 := finish_connects _ s14). clearbody s15.
  refine (kb_trans _ _ _ (kb_finish_listens (lpend s15) s15) _). set (s16 := finish_listens _ s15). clearbody s16.
  wgo.
Qed.
#[local] Hint Resolve kb_reset kb_collect : kb.
Lemma kb_stop s : kb s (stop_if_shut s). Proof. unfold stop_if_shut. wgo. Qed.
#[local] Hint Resolve kb_stop : kb.
Lemma kb_start n s : kb s (fst (start n s)). Proof. unfold start. wgo. Qed.
Lemma kb_proc_items n c : forall l s, kb s (proc_items n c l s).
Proof. induction n as [|n IH]; intros l s; cbn [proc_items]; [apply kb_refl|]. destruct l; wgo. Qed.
#[local] Hint Resolve kb_proc_items : kb.
Lemma kb_proc_one s p : kb s (proc_one s p).
Proof. unfold proc_one. destruct p as [c l]. wgo. Qed.
Lemma kb_proc n now feed s s' : proc n now feed s = Some s' -> kb s s'.
Proof.
  unfold proc. cbv zeta. set (s1 := if sec s <? now then set_sec now s else s). assert (K : kb s s1) by (subst s1; wgo). clearbody s1.
  destruct (nst s1); [intros [= <-]; exact K|..]; (destruct (fl_shut s1); [intros [= <-]; refine (kb_trans _ _ _ K _); wgo|];
    pose proof (kb_fold proc_one kb_proc_one feed s1) as K0; set (s2 := fold_left proc_one feed s1) in *; clearbody s2;
    match goal with |- context [parent_op now ?t] => assert (K1 : kb s2 (parent_op now t)) by wgo; set (s3 := parent_op now t) in *; clearbody s3 end;
    destruct (ping_loop n now None s3) as [s4|] eqn:L; [|discriminate]; intros [= <-]; apply kb_ping_loop in L;
    refine (kb_trans _ _ _ K (kb_trans _ _ _ K0 (kb_trans _ _ _ K1 (kb_trans _ _ _ L _)))); wgo).
Qed.
Lemma kb_io_step i s : kb s (io_step i s).
Proof. unfold io_step. wgo. Qed.
#[local] Hint Resolve kb_io_step : kb.
Lemma kb_poll l s : kb s (poll l s).
Proof.
  unfold poll. destruct (fl_shut s); [wgo|]. refine (kb_trans _ _ _ (kb_fold (fun s i => io_step i s) (fun s i => kb_io_step i s) l s) _).
  set (s1 := fold_left _ l s). clearbody s1. wgo.
Qed.
Lemma kb_step n ev s s' : (forall i x, ev <> EInit i x) -> step n ev s = Some s' -> kb s s'.
Proof.
  unfold step, step_ret. destruct ev as [i x| | | | | | | | | |now feed|l|i|]; cbn [option_map]; intros U E.
  - now elim (U i x).
  - injection E as <-. apply kb_start.
  - injection E as <-. apply kb_listen.
  - injection E as <-. apply kb_connect.
  - injection E as <-. wgo.
  - injection E as <-. wgo.
  - injection E as <-. wgo.
  - injection E as <-. wgo.
  - injection E as <-. wgo.
  - injection E as <-. wgo.
  - destruct (proc n now feed s) as [s1|] eqn:P; [|discriminate]. injection E as <-. eapply kb_proc; eauto.
  - injection E as <-. apply kb_poll.
  - injection E as <-. apply kb_io_step.
  - injection E as <-. cbn [fst]. wgo.
Qed.
