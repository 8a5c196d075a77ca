(** Every operation of a node is a sequence of small steps. *)
From Coq Require Import Permutation.
From Verif Require Import Base Subnet Route Address NodeTypes NodeConn NodeCore NodeMsg Node
  NodeFrame NodeReset NodeInv NodeKeep.
Local Open Scope N_scope.
Ltac Zify.zify_post_hook ::= idtac.

(** What only grows. *)
Record grow (s s' : node) : Prop := {
  G_c : nextc s <= nextc s';
  G_e : nexte s <= nexte s';
  G_ep : forall e, 0 < e < nexte s -> d_ep (es s' e) = d_ep (es s e);
  G_nst : nst s <> NCreated -> nst s' <> NCreated }.
Lemma grow_refl s : grow s s. Proof. constructor; trivial; reflexivity. Qed.
Lemma grow_trans s1 s2 s3 : grow s1 s2 -> grow s2 s3 -> grow s1 s3.
Proof.
  intros [A1 A2 A3 A4] [B1 B2 B3 B4]. constructor; [lia|lia| |auto].
  intros e R. rewrite B3 by lia. auto.
Qed.
Lemma grow_same s s' : nextc s' = nextc s -> nexte s' = nexte s -> es s' = es s -> nst s' = nst s -> grow s s'.
Proof. intros E1 E2 E3 E4. constructor; rewrite ?E1, ?E2, ?E3, ?E4; trivial; lia. Qed.
Lemma on_actived_nst s : nst (on_actived s) = NRunning.
Proof. unfold on_actived. cbn [fl_act set_nst]. now destruct (fl_act s). Qed.
Lemma grow_calm s s' : nextc s' = nextc s -> nexte s' = nexte s -> (forall e, d_ep (es s' e) = d_ep (es s e)) ->
  calm s s' -> grow s s'.
Proof. intros E1 E2 E3 C. constructor; rewrite ?E1, ?E2; trivial; try lia. now apply (calm_created' s s' C). Qed.
Lemma insert_ping_ep x s e : d_ep (es (insert_ping x s) e) = d_ep (es s e).
Proof.
  unfold insert_ping. destruct (_ || _); [reflexivity|]. rewrite es_on_e.
  destruct (N.eqb_spec e (e_ref x)) as [->|]; reflexivity.
Qed.
Lemma clear_ping_ep x s e : d_ep (es (clear_ping x s) e) = d_ep (es s e).
Proof. rewrite es_clear_ping. destruct (N.eqb_spec e x) as [->|]; reflexivity. Qed.
Lemma add_ping_ep x s e : d_ep (es (add_ping x s) e) = d_ep (es s e).
Proof. unfold add_ping. now rewrite insert_ping_ep, clear_ping_ep. Qed.
Lemma micro_grow a s s' : Inv s -> micro a s s' -> grow s s'.
Proof.
  intros H M. destruct M; try (apply grow_same; reflexivity).
  - destruct H0 as (? & ? & ? & ? & ? & ? & ? & ? & ? & ? & ? & ? & ? & ? & ? & ? & ? & ?). now apply grow_same.
  - constructor; [cbn; lia|cbn; lia|reflexivity|intros _; assumption].
  - constructor; try (rewrite (keeps (g := on_actived)); trivial; reflexivity).
    intros _. rewrite on_actived_nst. discriminate.
  - apply grow_calm; try fr1; [now rewrite (keeps (f := es))|apply calm_shutdown].
  - constructor; try (rewrite (keeps2 (h := conn_create)); trivial; reflexivity).
    + unfold conn_create. cbn [fst]. rewrite (keeps (f := nextc) (g := add_timer _)). cbn. lia.
  - apply grow_same; fr1.
  - apply grow_same; fr1.
  - apply grow_calm; try fr1; [|apply calm_conn_reset].
    intro e. rewrite (es_conn_reset _ c s (Inv_listed s H)). destruct (k_bind (cs s c)) as [x|]; [|reflexivity].
    destruct (N.eqb_spec e x) as [->|]; [|reflexivity]. destruct (drops _ _); reflexivity.
  - apply grow_calm; try fr1; [|apply calm_ep_reset].
    intro x. rewrite es_ep_reset. destruct (N.eqb_spec x e) as [->|]; reflexivity.
  - destruct (k_bind (cs s c)) as [x|] eqn:B.
    { rewrite (add_connection_bound e c b s x B). apply grow_refl. }
    destruct (add_connection_spec e c b s B) as (_ & EE & _ & CA). apply grow_calm; try fr1; [|exact CA].
    intro y. rewrite EE. destruct (N.eqb_spec y e) as [->|]; [destruct (_ || _)|]; reflexivity.
  - constructor; try reflexivity; trivial. intros y _. rewrite es_on_e.
    destruct (N.eqb_spec y e) as [->|]; trivial.
  - unfold ep_create. cbn [fst]. constructor; try (rewrite (keeps (g := insert_ping _)); trivial; cbn; lia).
    intros y R. rewrite insert_ping_ep. cbn [es set_nexte set_es]. unfold upd. destruct (N.eqb_spec y (nexte s)); [lia|reflexivity].
  - constructor; try (rewrite (keeps2 (h := add_endpoint x)); trivial; lia).
    + intros e R. unfold add_endpoint. destruct (fl_reset s); [reflexivity|].
      destruct (_ && _).
      * destruct (parent s); [reflexivity|]. cbn [fst].
        transitivity (d_ep (es (add_ping x (set_parent (Some x) s)) e)); [|now rewrite add_ping_ep].
        destruct (_ && _); [|reflexivity]. change (es (emit ?t ?z)) with (es z). now rewrite (keeps (f := es) (g := on_actived)).
      * destruct (_ && _); [reflexivity|]. destruct (insert_child _ _) as [[] t]; [|reflexivity].
        cbn [fst]. now rewrite add_ping_ep.
    + intros _. unfold add_endpoint. destruct (fl_reset s); [trivial|].
      destruct (_ && _).
      * destruct (parent s); [trivial|]. cbn [fst]. destruct (_ && _); change (nst (emit ?t ?z)) with (nst z).
        -- rewrite on_actived_nst. discriminate.
        -- now rewrite (keeps (f := nst) (g := add_ping x)).
      * destruct (_ && _); [trivial|]. destruct (insert_child _ _) as [[] t]; [|trivial].
        cbn [fst]. now rewrite (keeps (f := nst) (g := add_ping x)).
  - constructor; try (rewrite (keeps2 (h := remove_endpoint _ _)); trivial; lia).
    unfold remove_endpoint. intro N. destruct (is_parent s i).
    + destruct (parent s) as [p|]; [|exact N]. destruct (match ex with Some _ => _ | None => _ end); [exact N|].
      cbn [fst]. destruct (fl_act _); [discriminate|]. unfold fatal_shutdown. rewrite (keeps (f := nst) (g := shutdown _)). discriminate.
    + destruct (my_id s =? i); [exact N|]. destruct (remove_child _ _ _) as [[] t]; [|exact N].
      destruct (child_at _ _); exact N.
  - destruct (purge_fields s) as (R & L & E1 & E2 & E3 & E4 & E5 & E6 & E7 & E8 & E9 & E10 & E11 & E12 & E13 & E14 & E15 & E16).
    now apply grow_same.
  - apply grow_calm; try fr1; [intro; apply clear_ping_ep|apply calm_clear_ping].
  - constructor; try (rewrite (keeps (g := add_ping x)); trivial; lia).
    intros e _. apply add_ping_ep.
  - constructor; try (apply N.le_refl); trivial. intros y _. change (es (blamed e s) y) with (es (on_e e (fun d => set_d_fault (d_fault d + 1) d) s) y).
    rewrite es_on_e. destruct (N.eqb_spec y e) as [->|]; trivial.
  - constructor; try (apply N.le_refl); trivial. intros y _. change (es (forgive e s) y) with (es (on_e e (set_d_fault 0) s) y).
    rewrite es_on_e. destruct (N.eqb_spec y e) as [->|]; trivial.
Qed.
Lemma steps_grow a s s' : Inv s -> steps a s s' -> grow s s'.
Proof. apply steps_ind_rel; [apply grow_refl|apply grow_trans|apply micro_grow]. Qed.
Lemma alive_grow s s' x : grow s s' -> alive s x -> alive s' x.
Proof. intros [A B C D] [R E]. unfold alive. rewrite (C _ R). split; [lia|exact E]. Qed.


Lemma bound_range s c e : Inv s -> k_bind (cs s c) = Some e -> 0 < e < nexte s.
Proof. intros H B. destruct (bound_alive s c e H B) as [[R _] E]. now rewrite E in R. Qed.
Lemma alive_d s e : Inv s -> 0 < e < nexte s -> alive s (d_ep (es s e)).
Proof. intros H R. unfold alive. rewrite (I_ref s H e R). auto. Qed.
Lemma alive_ref s x e : alive s x -> e_ref x = e -> 0 < e < nexte s.
Proof. intros [R _] <-. exact R. Qed.

(** ** Automation *)
Create HintDb st discriminated.
#[export] Hint Constants Opaque : st.
#[export] Hint Variables Opaque : st.

Lemma carry_c s s' c : grow s s' -> c < nextc s -> c < nextc s'. Proof. intros []; lia. Qed.
Lemma carry_e s s' e : grow s s' -> 0 < e < nexte s -> 0 < e < nexte s'. Proof. intros []; lia. Qed.
Lemma carry_n s s' : grow s s' -> nst s <> NCreated -> nst s' <> NCreated. Proof. intros []; auto. Qed.
(** Facts that survive every step are brought to the later state. *)
Ltac carry G :=
  lazymatch type of G with grow ?s ?v =>
    repeat match goal with
    | H : ?c < nextc s |- _ => apply (carry_c s v c G) in H
    | H : 0 < ?e < nexte s |- _ => apply (carry_e s v e G) in H
    | H : nst s <> NCreated |- _ => apply (carry_n s v G) in H
    | H : alive s ?x |- _ => apply (alive_grow s v x G) in H
    end
  end.
(** Moves on to a later state: [H : steps a s s1] is used up. *)
Ltac mvn H v :=
  lazymatch type of H with
  | steps ?a ?s ?s1 =>
      refine (steps_trans a s s1 _ H _);
      lazymatch goal with
      | I : Inv s |- _ =>
          let I1 := fresh "I" in let G := fresh "G" in
          pose proof (steps_Inv a s s1 H I) as I1;
          pose proof (steps_grow a s s1 I H) as G;
          clear H; set (v := s1) in *; clearbody v; carry G
      end
  end.
Ltac mv H := let v := fresh "s" in mvn H v.
(** One layer. *)
Ltac leaf := solve [eauto 4 with st].
Ltac go1 :=
  cbv beta;
  lazymatch goal with
  | |- steps ?a ?s ?s => apply steps_refl
  | |- steps ?a ?s (emit (TGood ?e) (on_e ?e _ ?s)) => apply steps_one, (M_good a e s)
  | |- steps ?a ?s (fst (let x := ?e in @?b x)) => go_let a s e ltac:(fun e' => change (steps a s (fst (b e'))))
  | |- steps ?a ?s (let x := ?e in @?b x) => go_let a s e ltac:(fun e' => change (steps a s (b e')))
  | |- steps ?a ?s (fst (fst (let x := ?e in @?b x))) => go_let a s e ltac:(fun e' => change (steps a s (fst (fst (b e')))))
  | |- steps ?a ?s (fst (fst (fst (let x := ?e in @?b x)))) => go_let a s e ltac:(fun e' => change (steps a s (fst (fst (fst (b e'))))))
  | |- steps ?a ?s (fst (fst (fst (match ?x with _ => _ end)))) => go_case a s x
  | |- steps ?a ?s (fst (fst (match ?x with _ => _ end))) => go_case a s x
  | |- steps ?a ?s (fst (match ?x with _ => _ end)) => go_case a s x
  | |- steps ?a ?s (match ?x with _ => _ end) => go_case a s x
  | |- steps ?a ?s (fst (fst (fst (?x, ?y)))) => change (steps a s (fst (fst x)))
  | |- steps ?a ?s (fst (fst (?x, ?y))) => change (steps a s (fst x))
  | |- steps ?a ?s (fst (?x, ?y)) => change (steps a s x)
  | |- steps ?a ?s (fst (fst (fst (?h ?t)))) => go_at a s t
  | |- steps ?a ?s (fst (fst (?h ?t))) => go_at a s t
  | |- steps ?a ?s (fst (?h ?t)) => go_at a s t
  | |- steps ?a ?s (?g ?t) => go_at a s t
  end
with go_at a s t :=
  first [ constr_eq s t; leaf
        | let H := fresh in assert (H : steps a s t) by (repeat go1); mv H; leaf ]
with go_let a s e k :=
  lazymatch type of e with
  | node =>
      first [ constr_eq s e; k s; cbv beta
            | let H := fresh in assert (H : steps a s e) by (repeat go1); k e; cbv beta; mv H ]
  | _ => let v := fresh in set (v := e); k v; cbv beta; clearbody v
  end
with go_case a s x :=
  lazymatch type of x with
  | (node * _)%type =>
      let H := fresh in assert (H : steps a s (fst x)) by (repeat go1);
      let E := fresh "E" in destruct x as [? ?] eqn:E; cbn [fst] in H; clear E; mv H
  | (node * _ * _)%type =>
      let H := fresh in assert (H : steps a s (fst (fst x))) by (repeat go1);
      let E := fresh "E" in destruct x as [[? ?] ?] eqn:E; cbn [fst] in H; clear E; mv H
  | (node * _ * _ * _)%type =>
      let H := fresh in assert (H : steps a s (fst (fst (fst x)))) by (repeat go1);
      let E := fresh "E" in destruct x as [[[? ?] ?] ?] eqn:E; cbn [fst] in H; clear E; mv H
  | _ => let E := fresh "E" in destruct x eqn:E in |- *
  end.
Ltac go := repeat go1.

(** ** Leaves *)
Lemma st_misc a s s' : same_core s s' -> steps a s s'.
Proof. intro. now apply steps_one, M_misc. Qed.
Lemma st_fl_reset a v s : steps a s (set_fl_reset v s). Proof. apply st_misc; same. Qed.
#[export] Hint Resolve st_fl_reset : st.
Lemma st_fl_gcreset a v s : steps a s (set_fl_gcreset v s). Proof. apply st_misc; same. Qed.
#[export] Hint Resolve st_fl_gcreset : st.
Lemma st_fl_preg a v s : steps a s (set_fl_preg v s). Proof. apply st_misc; same. Qed.
#[export] Hint Resolve st_fl_preg : st.
Lemma st_fl_self a v s : steps a s (set_fl_self v s). Proof. apply st_misc; same. Qed.
#[export] Hint Resolve st_fl_self : st.
Lemma st_fl_gce a v s : steps a s (set_fl_gce v s). Proof. apply st_misc; same. Qed.
#[export] Hint Resolve st_fl_gce : st.
Lemma st_fl_gcc a v s : steps a s (set_fl_gcc v s). Proof. apply st_misc; same. Qed.
#[export] Hint Resolve st_fl_gcc : st.
Lemma st_popr a v s : steps a s (set_popr v s). Proof. apply st_misc; same. Qed.
#[export] Hint Resolve st_popr : st.
Lemma st_gcc a v s : steps a s (set_gcc v s). Proof. apply st_misc; same. Qed.
#[export] Hint Resolve st_gcc : st.
Lemma st_procs a v s : steps a s (set_procs v s). Proof. apply st_misc; same. Qed.
#[export] Hint Resolve st_procs : st.
Lemma st_seqn a v s : steps a s (set_seqn v s). Proof. apply st_misc; same. Qed.
#[export] Hint Resolve st_seqn : st.
Lemma st_qdata a v s : steps a s (set_qdata v s). Proof. apply st_misc; same. Qed.
#[export] Hint Resolve st_qdata : st.
Lemma st_qcmd a v s : steps a s (set_qcmd v s). Proof. apply st_misc; same. Qed.
#[export] Hint Resolve st_qcmd : st.
Lemma st_orc a v s : steps a s (set_orc v s). Proof. apply st_misc; same. Qed.
#[export] Hint Resolve st_orc : st.
Lemma st_salts a v s : steps a s (set_salts v s). Proof. apply st_misc; same. Qed.
#[export] Hint Resolve st_salts : st.
Lemma st_nst a v s : v <> NCreated -> steps a s (set_nst v s). Proof. intro. now apply steps_one, M_nst. Qed.
Lemma st_act a s : nst s <> NCreated -> my_id s = 0 \/ x_parent (cf s) = [] \/ parent s <> None -> steps a s (on_actived s).
Proof. intros. now apply steps_one, M_act. Qed.
Lemma st_shut a z s : steps a s (shutdown z s). Proof. apply steps_one, M_shut. Qed.
Lemma st_fatal a z s : steps a s (fatal_shutdown z s). Proof. apply st_shut. Qed.
Lemma st_emit a t s : silent t -> uncounted t -> steps a s (emit t s). Proof. intros. now apply steps_one, M_emit. Qed.
Lemma st_create a s : steps a s (fst (conn_create s)). Proof. apply steps_one, M_create. Qed.
Lemma st_push a c m s : steps a s (fst (push c m s)). Proof. apply steps_one, M_push. Qed.
Lemma st_written a c z n s : steps a s (written c z n s). Proof. apply steps_one, M_written. Qed.
Lemma st_creset a c s : steps a s (conn_reset c s). Proof. apply steps_one, M_creset. Qed.
Lemma st_ereset a g e s : 0 < e < nexte s -> steps a s (ep_reset None g e s).
Proof. intro. now apply steps_one, M_ereset. Qed.
Lemma st_addconn e c b s : 0 < e < nexte s -> c < nextc s -> steps true s (fst (add_connection e c b s)).
Proof. intros. now apply steps_one, M_addconn. Qed.
Lemma st_epcreate a i subs p h s : steps a s (fst (ep_create i subs p h s)). Proof. apply steps_one, M_epcreate. Qed.
Lemma st_rmep a i ex s : grounds i ex s -> steps a s (fst (remove_endpoint i ex s)). Proof. intro. now apply steps_one, M_rmep. Qed.
Lemma st_blamed a e s : steps a s (blamed e s). Proof. apply steps_one, M_fault. Qed.
Lemma st_forgive a e s : steps a s (forgive e s). Proof. apply steps_one, M_good. Qed.
Lemma st_unping a e s : steps a s (clear_ping e s). Proof. apply steps_one, M_unping. Qed.
Lemma st_ping a x s : alive s x -> steps a s (add_ping x s). Proof. intro. now apply steps_one, M_ping. Qed.
Lemma st_sec a v s : sec s <= v -> steps a s (set_sec v s). Proof. intro. now apply steps_one, M_sec. Qed.
Lemma st_gce_nil a s : steps a s (set_gce [] s). Proof. apply steps_one, M_gce. intros x []. Qed.
#[export] Hint Resolve st_act st_shut st_fatal st_push st_written st_creset st_ereset st_addconn
  st_blamed st_forgive st_unping st_ping st_sec st_gce_nil : st.
#[export] Hint Extern 1 (steps _ _ (set_nst _ _)) => (apply st_nst; discriminate) : st.
#[export] Hint Extern 1 (steps _ _ (emit _ _)) => (apply st_emit; exact I) : st.
#[export] Hint Extern 0 (steps _ _ (emit (TGood ?e) (on_e ?e (set_d_fault 0) _))) => apply st_forgive : st.

(** A change of a connection that leaves state, transport, binding and counters alone. *)
Lemma st_plain a c f s : Inv s -> (forall k, k_bind (f k) = k_bind k) -> (forall k, k_st (f k) = k_st k) ->
  (forall k, k_kind (f k) = k_kind k) -> (forall k, stats (f k) = stats k) -> steps a s (on_c c f s).
Proof.
  intros H B T K S. apply steps_one, M_conn; auto.
  - apply (conn_ok_same (cs s c)); auto. apply (I_conn s H).
  - rewrite K. intros [X|X]; [now apply (I_pendc s H)|now apply (I_freshc s H)].
Qed.
#[export] Hint Extern 1 (steps _ _ (on_c _ _ _)) =>
  (apply st_plain; [assumption|intros []; reflexivity|intros []; reflexivity|intros []; reflexivity|intros []; reflexivity]) : st.
Lemma st_plain_ep a e f s : (forall d, d_ep (f d) = d_ep d) -> (forall d, d_ctrl (f d) = d_ctrl d) ->
  (forall d, d_data (f d) = d_data d) -> (forall d, d_timer (f d) = d_timer d) -> (forall d, d_fault (f d) <= d_fault d) -> steps a s (on_e e f s).
Proof. intros. apply steps_one, M_ep; auto. Qed.
#[export] Hint Extern 1 (steps _ _ (on_e _ _ _)) =>
  (apply st_plain_ep; intros []; (reflexivity || apply N.le_0_l)) : st.

Lemma st_gc_conn a c s : steps a s (gc_conn c s).
Proof. unfold gc_conn. destruct (_ || _); [apply steps_refl|apply st_gcc]. Qed.
Lemma st_gc_ep a x s : Inv s -> alive s x -> steps a s (gc_ep x s).
Proof.
  intros H A. unfold gc_ep. destruct (_ || _); [apply steps_refl|]. apply steps_one, M_gce.
  intros y Y. apply in_app_iff in Y as [Y|[<-|[]]]; [|exact A]. apply (I_tab s H). unfold tabled. auto.
Qed.
Lemma st_status a c v s : Inv s -> conn_ok (set_k_st v (cs s c)) -> steps a s (set_status c v s).
Proof.
  intros H O1. unfold set_status. destruct (cst_eqb _ _); [apply steps_refl|].
  assert (steps a s (on_c c (set_k_st v) s)) as S1.
  { apply steps_one, M_conn; auto. change (k_kind (set_k_st v (cs s c))) with (k_kind (cs s c)).
    intros [X|X]; [now apply (I_pendc s H)|now apply (I_freshc s H)]. }
  refine (steps_trans _ _ _ _ S1 _). generalize (on_c c (set_k_st v) s). intro s1.
  destruct v; try apply steps_refl. unfold rm_timer. destruct (in_timer s1 c); [|apply steps_refl].
  destruct (is_connected s1 c).
  - apply steps_one, M_timers, sub_filter.
  - refine (steps_trans _ _ _ _ (st_emit a (TInvalid c) s1 I I) _). apply steps_one, M_timers, sub_filter.
Qed.
Lemma st_drop_ep a e s : 0 < e < nexte s -> steps a s (ep_drop e s).
Proof. intro. unfold ep_drop. destruct (ep_held s e); [apply steps_refl|now apply st_ereset]. Qed.
Lemma st_drop_conn a c s : steps a s (conn_drop c s).
Proof. unfold conn_drop. destruct (conn_held s c); [apply steps_refl|apply st_creset]. Qed.
#[export] Hint Resolve st_gc_conn st_gc_ep st_drop_ep st_drop_conn : st.
Lemma st_add_listen a e x s : steps a s (add_listen e x s).
Proof.
  unfold add_listen. destruct x; [apply steps_refl|].
  apply st_plain_ep; intros []; destruct (is_simplex _); reflexivity.
Qed.
Lemma st_created a e s : steps a s (fst (created e s)).
Proof. unfold created. destruct (0 <? _); [apply steps_refl|]. cbn [fst]. apply st_plain_ep; intros []; reflexivity. Qed.
#[export] Hint Resolve st_add_listen st_created : st.

(** ** Sending *)
Lemma st_alloc a s : steps a s (fst (alloc_seq s)). Proof. apply st_seqn. Qed.
Lemma st_orc1 a s : steps a s (fst (take_orc s)).
Proof. unfold take_orc. destruct (orc s); [apply steps_refl|apply st_orc]. Qed.
Lemma st_salt1 a s : steps a s (fst (take_salt s)).
Proof. unfold take_salt. destruct (salts s); [apply steps_refl|apply st_salts]. Qed.
#[export] Hint Resolve st_alloc st_orc1 st_salt1 : st.
Lemma st_gen_keys a ts : forall s, Inv s -> steps a s (fst (gen_keys ts s)).
Proof. induction ts as [|t r IH]; intros s H; cbn [gen_keys]; go. Qed.
#[export] Hint Resolve st_gen_keys : st.
Lemma st_send_on a c m s : steps a s (fst (send_on c m s)).
Proof. unfold send_on. destruct (_ <? _); [apply steps_refl|apply st_push]. Qed.
#[export] Hint Resolve st_send_on : st.
Lemma st_send_reg a rsp c z q s : Inv s -> steps a s (fst (send_reg rsp c z q s)).
Proof. intro H. unfold send_reg. go. Qed.
Lemma st_send_ping a c q s : Inv s -> steps a s (fst (send_ping c q s)).
Proof. intro H. unfold send_ping. go. Qed.
#[export] Hint Resolve st_send_reg st_send_ping : st.
Lemma st_new a c s : Inv s -> steps a s (on_new_connection c s).
Proof. intro H. unfold on_new_connection. go. Qed.
#[export] Hint Resolve st_new : st.
Lemma st_ep_fault a e s : Inv s -> steps a s (fst (ep_fault e s)).
Proof.
  intro H. unfold ep_fault. change (emit _ _) with (blamed e s). cbv zeta.
  set (s1 := blamed e s). destruct (x_tol (cf s1) <? d_fault (es s1 e)) eqn:L; cbn [fst]; [|apply st_blamed].
  refine (steps_trans _ _ _ _ (st_blamed a e s) _). apply st_rmep. right. left.
  exists e, (x_tol (cf s)), (log s). split; [|now apply N.ltb_lt in L].
  assert (E : e_id (d_ep (es s1 e)) = e_id (d_ep (es s e))).
  { change (es s1 e) with (es (on_e e (fun d => set_d_fault (d_fault d + 1) d) s) e). now rewrite es_on_e, N.eqb_refl. }
  rewrite E. reflexivity.
Qed.
Lemma st_conn_fault a c s : Inv s -> steps a s (conn_fault c s).
Proof. intro H. unfold conn_fault. go. Qed.
#[export] Hint Resolve st_ep_fault st_conn_fault : st.
Lemma st_number a m s : steps a s (fst (number m s)).
Proof. unfold number. destruct (_ =? 0); [|apply steps_refl]. apply (st_alloc a s). Qed.
#[export] Hint Resolve st_number : st.
Lemma st_post a d i m s : Inv s -> steps a s (fst (post d i m s)).
Proof. intro H. unfold post. go. Qed.
#[export] Hint Resolve st_post : st.
Lemma st_send_cmd_rsp a oc d ty z q f s : Inv s -> steps a s (fst (send_cmd_rsp oc d ty z q f s)).
Proof. intro H. unfold send_cmd_rsp. go. Qed.
#[export] Hint Resolve st_send_cmd_rsp : st.
Lemma st_cmd_req a oc h q s : Inv s -> steps a s (fst (cmd_req oc h q s)).
Proof. intro H. unfold cmd_req. go. Qed.
Lemma st_cmd_rsp a oc h q s : Inv s -> steps a s (fst (cmd_rsp oc h q s)).
Proof. intro H. unfold cmd_rsp. go. Qed.
#[export] Hint Resolve st_cmd_req st_cmd_rsp : st.
Lemma st_self_data a m s : Inv s -> steps a s (self_data m s).
Proof. intro H. unfold self_data. go. Qed.
Lemma st_self_cmd a m s : Inv s -> steps a s (self_cmd m s).
Proof. intro H. unfold self_cmd. go. Qed.
#[export] Hint Resolve st_self_data st_self_cmd : st.
Lemma st_data_loop a n : forall s, Inv s -> steps a s (fst (fst (self_data_loop n s))).
Proof. induction n as [|n IH]; intros s H; cbn [self_data_loop]; go. Qed.
Lemma st_cmd_loop a n : forall s, Inv s -> steps a s (fst (self_cmd_loop n s)).
Proof. induction n as [|n IH]; intros s H; cbn [self_cmd_loop]; go. Qed.
#[export] Hint Resolve st_data_loop st_cmd_loop : st.
Lemma st_dispatch_self a s : Inv s -> steps a s (fst (dispatch_self s)).
Proof. intro H. unfold dispatch_self. go. Qed.
#[export] Hint Resolve st_dispatch_self : st.
Lemma st_send_to a d i m s : Inv s -> steps a s (fst (send_to d i m s)).
Proof. intro H. unfold send_to. go. Qed.
#[export] Hint Resolve st_send_to : st.

(** ** Opening connections *)
(** A connection nobody refers to yet. *)
Definition unused (s : node) (c : N) : Prop :=
  c < nextc s /\ k_bind (cs s c) = None /\ k_kind (cs s c) = KNone /\ ~ In c (pend s ++ lpend s).
Lemma created_unused s : Inv s -> unused (fst (conn_create s)) (snd (conn_create s)).
Proof.
  intro H. unfold conn_create, unused. cbn [fst snd].
  rewrite (keeps (f := nextc) (g := add_timer _)), (keeps (f := cs) (g := add_timer _)),
    (keeps (f := pend) (g := add_timer _)), (keeps (f := lpend) (g := add_timer _)).
  cbn [nextc cs pend lpend set_nextc set_cs]. unfold upd. rewrite N.eqb_refl. cbn.
  repeat split; [lia|]. intro X. apply (I_pendc s H) in X. lia.
Qed.
Lemma unused_same s s' c : nextc s' = nextc s -> pend s' = pend s -> lpend s' = lpend s ->
  k_bind (cs s' c) = k_bind (cs s c) -> k_kind (cs s' c) = k_kind (cs s c) -> unused s c -> unused s' c.
Proof. intros E1 E2 E3 E4 E5. unfold unused. now rewrite E1, E2, E3, E4, E5. Qed.
Lemma unused_plain s c f : (forall k, k_bind (f k) = k_bind k) -> (forall k, k_kind (f k) = k_kind k) ->
  unused s c -> unused (on_c c f s) c.
Proof.
  intros B K. apply unused_same; try reflexivity; rewrite cs_on_c, N.eqb_refl; auto.
Qed.
Lemma unused_status s c v : unused s c -> unused (set_status c v s) c.
Proof.
  apply unused_same; try fr1; rewrite cs_set_status, N.eqb_refl; reflexivity.
Qed.
Lemma unused_orc s c : unused s c -> unused (fst (take_orc s)) c.
Proof. apply unused_same; try fr1; now rewrite (keeps2 (f := cs) (h := take_orc)). Qed.
Lemma status_ok s c v : Inv s -> k_bind (cs s c) = None -> v <> Disconnecting -> v <> Connected -> v <> Disconnected ->
  conn_ok (set_k_st v (cs s c)).
Proof. intros H B V1 V2 V3. unfold conn_ok. cbn [k_st k_bind k_kind set_k_st]. repeat split; congruence. Qed.
Lemma st_kind a s c k : Inv s -> unused s c -> k = KRecv ->
  steps a s (on_c c (set_k_kind k) s).
Proof.
  intros H (L & B & K & P) ->. destruct (I_conn s H c) as (A1 & A2 & A3 & A4). apply steps_one, M_conn; try reflexivity.
  - unfold conn_ok. cbn [k_st k_bind k_kind set_k_kind]. repeat split; auto; discriminate.
  - congruence.
  - intros [X|X]; [contradiction|lia].
Qed.
Lemma st_conn_connect a c x s : Inv s -> unused s c -> steps a s (fst (conn_connect c x s)).
Proof.
  intros H U. unfold conn_connect. destruct (k_st (cs s c)) eqn:ST; try apply steps_refl.
  destruct (parse_address x) as [|p| |]; cbn [fst]; try solve [eauto with st].
  assert (S1 : steps a s (on_c c (set_k_addr x) s)) by eauto with st.
  assert (U1 : unused (on_c c (set_k_addr x) s) c) by (now apply unused_plain).
  assert (ST1 : k_st (cs (on_c c (set_k_addr x) s) c) = Disconnected) by (rewrite cs_on_c, N.eqb_refl; exact ST).
  cbv zeta. mv S1. clear U ST H.
  destruct (_ || _).
  - assert (S1 : steps a s0 (fst (take_orc s0))) by eauto with st.
    assert (U2 : unused (fst (take_orc s0)) c) by (now apply unused_orc).
    assert (ST2 : k_st (cs (fst (take_orc s0)) c) = Disconnected) by (now rewrite (keeps2 (f := cs) (h := take_orc))).
    destruct (take_orc s0) as [s1 r]. cbn [fst] in *. mv S1.
    destruct (r <? 0)%Z; [apply steps_refl|]. cbn [fst].
    set (b := prefix_nocase s_mem (a_scheme p)). clearbody b.
    set (f := fun k => flags_of b true (set_k_kind KSend k)).
    assert (S1 : steps a s2 (on_c c f s2)).
    { destruct U2 as (L & B & K & P). destruct (I_conn s2 ltac:(assumption) c) as (A1 & A2 & A3 & A4).
      apply steps_one, M_conn; try reflexivity.
      - unfold f, conn_ok, flags_of. cbn. repeat split; auto; discriminate.
      - congruence.
      - intros [X|X]; [contradiction|lia]. }
    assert (B3 : k_bind (cs (on_c c f s2) c) = None) by (rewrite cs_on_c, N.eqb_refl; apply U2).
    mv S1. rewrite B3.
    assert (S1 : steps a s3 (set_status c Handshaking s3)).
    { apply st_status; [assumption|]. apply status_ok; auto; discriminate. }
    mv S1. now apply st_new.
  - set (s2 := if _ && _ then _ else _).
    assert (S2 : steps a s0 s2 /\ unused s2 c).
    { subst s2. destruct (_ && _); [|destruct (_ && _); [|destruct (prefix_nocase _ _)]];
        (split; [try apply steps_refl; eauto with st|try assumption; apply unused_plain; trivial]). }
    destruct S2 as [S2 U2]. clearbody s2. mv S2.
    assert (S3 : steps a s1 (set_status c Connecting s1)).
    { apply st_status; [assumption|]. apply status_ok; auto; try discriminate. apply U2. }
    assert (U3 : unused (set_status c Connecting s1) c) by (now apply unused_status).
    mv S3.
    assert (S4 : steps a s3 (fst (take_orc s3))) by eauto with st.
    assert (U4 : unused (fst (take_orc s3)) c) by (now apply unused_orc).
    destruct (take_orc s3) as [s4 r]. cbn [fst] in *. mv S4. destruct U4 as (L & B & K & P).
    destruct (r <? 0)%Z; [apply steps_refl|]. apply steps_one. now apply M_pendadd.
Qed.
Ltac with_new v n :=
  match goal with H : Inv ?s |- steps ?a ?s (fst (let (_, _) := conn_create ?s in _)) =>
    let U := fresh "U" in let S := fresh "S" in
    pose proof (created_unused s H) as U; pose proof (st_create a s) as S;
    destruct (conn_create s) as [? n]; cbn [fst snd] in U, S; mvn S v
  end.
Lemma st_connect a x s : Inv s -> steps a s (fst (connect x s)).
Proof.
  intro H. unfold connect. destruct (nst s); try apply steps_refl;
    (destruct (existsb _ _); [apply steps_refl|]; with_new s1 n;
     destruct (_ || _); [apply steps_refl|];
     pose proof (st_conn_connect a n x s1 ltac:(assumption) U) as S1; destruct (conn_connect n x s1) as [s2 r];
     cbn [fst] in S1; destruct (r <? 0)%Z; exact S1).
Qed.
Lemma st_connect_ep x e s : Inv s -> 0 < e < nexte s -> steps true s (fst (connect_ep x e s)).
Proof.
  intros H R. unfold connect_ep. destruct (nst s); try apply steps_refl;
    (destruct (existsb _ _); [apply steps_refl|]; with_new s1 n;
     pose proof (st_conn_connect true n x s1 ltac:(assumption) U) as S1; destruct (conn_connect n x s1) as [s2 r];
     cbn [fst] in S1; destruct U as (L & _);
     destruct (r <? 0)%Z; [exact S1|]; mv S1; go).
Qed.
#[export] Hint Resolve st_connect st_connect_ep : st.
Definition vacant (s : node) (c : N) : Prop :=
  c < nextc s /\ k_kind (cs s c) = KNone /\ ~ In c (pend s ++ lpend s).
Lemma st_listen_cb a c z s : Inv s -> vacant s c -> steps a s (listen_cb c z s).
Proof.
  intros H U. unfold listen_cb. destruct (z <? 0)%Z.
  - apply st_status; [assumption|]. unfold conn_ok. destruct U as (L & K & P). cbn [k_st k_bind k_kind set_k_st].
    rewrite K. repeat split; discriminate.
  - set (f := fun k => set_k_lfd true (set_k_fd true k)).
    assert (S1 : steps a s (on_c c f s)) by (unfold f; eauto with st).
    assert (U1 : vacant (on_c c f s) c) by (unfold vacant; now rewrite cs_on_c, N.eqb_refl).
    cbv zeta. mv S1.
    assert (S2 : steps a s0 (set_status c Connected s0)).
    { apply st_status; [assumption|]. destruct U1 as (L & K & P).
      unfold conn_ok. cbn [k_st k_bind k_kind set_k_st]. repeat split; congruence. }
    assert (U2 : vacant (set_status c Connected s0) c).
    { unfold vacant. rewrite (keeps (f := nextc) (g := set_status c Connected)),
        (keeps (f := pend) (g := set_status c Connected)), (keeps (f := lpend) (g := set_status c Connected)).
      rewrite cs_set_status, N.eqb_refl. exact U1. }
    assert (ST : k_st (cs (set_status c Connected s0) c) = Connected) by (now rewrite cs_set_status, N.eqb_refl).
    mv S2.
    assert (S3 : steps a s1 (on_c c (set_k_kind KListen) s1)).
    { destruct U2 as (L & K & P). destruct (I_conn s1 ltac:(assumption) c) as (A1 & A2 & A3 & A4).
      apply steps_one, M_conn; try reflexivity.
      - unfold conn_ok. cbn [k_st k_bind k_kind set_k_kind]. repeat split; auto; congruence.
      - congruence.
      - intros [X|X]; [contradiction|lia]. }
    mv S3. now apply st_new.
Qed.
Lemma unused_vacant s c : unused s c -> vacant s c.
Proof. intros (A & B & C & D). now repeat split. Qed.
Lemma st_conn_listen a c x s : Inv s -> unused s c -> steps a s (fst (conn_listen c x s)).
Proof.
  intros H U. unfold conn_listen. destruct (k_st (cs s c)) eqn:ST; try apply steps_refl.
  destruct (parse_address x) as [|p| |]; cbn [fst]; try solve [eauto with st].
  assert (S1 : steps a s (on_c c (set_k_addr x) s)) by eauto with st.
  assert (U1 : unused (on_c c (set_k_addr x) s) c) by (now apply unused_plain).
  cbv zeta. mv S1. clear U ST H.
  destruct (_ || _).
  - assert (S1 : steps a s0 (fst (take_orc s0))) by eauto with st.
    assert (U2 : unused (fst (take_orc s0)) c) by (now apply unused_orc).
    destruct (take_orc s0) as [s1 r]. cbn [fst] in *. mv S1.
    destruct (r <? 0)%Z; [apply steps_refl|]. cbn [fst].
    assert (S1 : steps a s2 (on_c c (set_k_kind KRecv) s2)) by (now apply st_kind).
    assert (B3 : k_bind (cs (on_c c (set_k_kind KRecv) s2) c) = None) by (rewrite cs_on_c, N.eqb_refl; apply U2).
    assert (K3 : k_kind (cs (on_c c (set_k_kind KRecv) s2) c) = KRecv) by (now rewrite cs_on_c, N.eqb_refl).
    mv S1.
    assert (S1 : steps a s3 (add_proc c s3)).
    { unfold add_proc. destruct (_ || _); [apply steps_refl|apply st_procs]. }
    assert (E4 : cs (add_proc c s3) = cs s3) by fr1.
    rewrite <- E4 in B3, K3. clear E4. mv S1.
    set (b := prefix_nocase s_mem (a_scheme p)). clearbody b.
    set (f := fun k => flags_of b true (set_k_proc true k)).
    assert (S1 : steps a s4 (on_c c f s4)) by (unfold f; eauto with st).
    assert (B5 : k_bind (cs (on_c c f s4) c) = None) by (rewrite cs_on_c, N.eqb_refl; apply B3).
    assert (K5 : k_kind (cs (on_c c f s4) c) = KRecv) by (rewrite cs_on_c, N.eqb_refl; apply K3).
    mv S1.
    assert (S1 : steps a s5 (set_status c Connected s5)).
    { apply st_status; [assumption|]. unfold conn_ok. cbn [k_st k_bind k_kind set_k_st]. repeat split; congruence. }
    mv S1. now apply st_new.
  - set (s2 := if prefix_nocase s_unix _ then _ else _).
    assert (S2 : steps a s0 s2 /\ unused s2 c).
    { subst s2. destruct (prefix_nocase _ _);
        (split; [try apply steps_refl; eauto with st|try assumption; apply unused_plain; trivial]). }
    destruct S2 as [S2 U2]. clearbody s2. mv S2.
    assert (S3 : steps a s1 (set_status c Connecting s1)).
    { apply st_status; [assumption|]. apply status_ok; auto; try discriminate. apply U2. }
    assert (U3 : unused (set_status c Connecting s1) c) by (now apply unused_status).
    mv S3.
    assert (S4 : steps a s3 (fst (take_orc s3))) by eauto with st.
    assert (U4 : unused (fst (take_orc s3)) c) by (now apply unused_orc).
    destruct (take_orc s3) as [s4 r]. cbn [fst] in *. mv S4.
    destruct (r <? 0)%Z; [apply steps_refl|]. cbn [fst].
    destruct (prefix_nocase s_dns _); [|apply st_listen_cb; [assumption|now apply unused_vacant]].
    destruct U4 as (L & B & K & P). apply steps_one. now apply M_lpendadd.
Qed.
Lemma st_listen x s : Inv s -> steps true s (fst (listen x s)).
Proof.
  intro H. unfold listen. destruct (nst s); try apply steps_refl;
    (with_new s1 n; pose proof (st_conn_listen true n x s1 ltac:(assumption) U) as S1; destruct (conn_listen n x s1) as [s2 r];
     cbn [fst] in S1; destruct U as (L & _);
     destruct (r <? 0)%Z; [exact S1|]; mvn S1 s3;
     destruct (self s3) as [me|] eqn:SE; [|apply steps_refl];
     assert (R : 0 < e_ref me < nexte s3) by
       (eapply alive_ref; [apply (I_tab s3 ltac:(assumption)); left; exact SE|reflexivity]); go).
Qed.
#[export] Hint Resolve st_listen : st.
Lemma sub_rm c l : sub (rm c l) l. Proof. apply sub_filter. Qed.
Lemma notin_rm c l m : NoDup (l ++ m) -> In c l -> ~ In c (rm c l ++ m).
Proof.
  intros D X Y. apply in_app_iff in Y as [Y|Y]; [apply in_rm in Y; now apply Y|].
  apply in_split in X as (u & v & ->). rewrite <- app_assoc in D. cbn in D.
  apply NoDup_remove_2 in D. apply D. apply in_app_iff. right. apply in_app_iff. auto.
Qed.
Lemma nodup_comm {A} (l m : list A) : NoDup (l ++ m) -> NoDup (m ++ l).
Proof. intro D. eapply Permutation_NoDup; [apply Permutation_app_comm|exact D]. Qed.
Lemma st_connected a c z s : Inv s -> In c (pend s) -> steps a s (connected_cb c z s).
Proof.
  intros H P. unfold connected_cb.
  assert (S1 : steps a s (set_pend (rm c (pend s)) s)) by (apply steps_one, M_pend, sub_rm).
  assert (X1 : c < nextc (set_pend (rm c (pend s)) s) /\ k_kind (cs (set_pend (rm c (pend s)) s) c) = KNone /\
               ~ In c (pend (set_pend (rm c (pend s)) s) ++ lpend (set_pend (rm c (pend s)) s))).
  { cbn. destruct (I_pendc s H c) as [A B]; [apply in_app_iff; auto|]. repeat split; trivial.
    apply notin_rm; [apply (I_pend s H)|exact P]. }
  cbv zeta. mv S1. destruct X1 as (L & K & NP). clear P H.
  destruct (z <? 0)%Z.
  - assert (S1 : steps a s0 (conn_reset c s0)) by eauto with st. mv S1. eauto with st.
  - assert (S1 : steps a s0 (on_c c (set_k_fd true) s0)) by eauto with st.
    assert (X1 : c < nextc (on_c c (set_k_fd true) s0) /\ k_kind (cs (on_c c (set_k_fd true) s0) c) = KNone /\
               ~ In c (pend (on_c c (set_k_fd true) s0) ++ lpend (on_c c (set_k_fd true) s0))).
    { rewrite cs_on_c, N.eqb_refl. repeat split; trivial. }
    clear L K NP. mv S1. destruct X1 as (L & K & NP).
    set (v := match k_bind (cs s1 c) with None => Handshaking | Some _ => Connected end).
    assert (S1 : steps a s1 (set_status c v s1)).
    { apply st_status; [assumption|]. unfold v, conn_ok. cbn [k_st k_bind k_kind set_k_st].
      destruct (k_bind (cs s1 c)); repeat split; congruence. }
    assert (X1 : c < nextc (set_status c v s1) /\ k_kind (cs (set_status c v s1) c) = KNone /\
               ~ In c (pend (set_status c v s1) ++ lpend (set_status c v s1)) /\
               (k_st (cs (set_status c v s1) c) = Connected -> k_bind (cs (set_status c v s1) c) <> None) /\
               k_st (cs (set_status c v s1) c) <> Disconnected).
    { rewrite cs_set_status, N.eqb_refl, (keeps (f := nextc) (g := set_status c v)),
        (keeps (f := pend) (g := set_status c v)), (keeps (f := lpend) (g := set_status c v)).
      cbn [k_kind k_bind k_st set_k_st]. repeat split; trivial; unfold v;
      destruct (k_bind (cs s1 c)); discriminate. }
    clear L K NP. mv S1. destruct X1 as (L & K & NP & V & V').
    assert (S1 : steps a s2 (on_c c (set_k_kind KSock) s2)).
    { apply steps_one, M_conn; try reflexivity.
      - destruct (I_conn s2 ltac:(assumption) c) as (A1 & A2 & A3 & A4). unfold conn_ok. cbn [k_st k_bind k_kind set_k_kind].
        repeat split; auto; contradiction.
      - congruence.
      - intros [X|X]; [contradiction|lia]. }
    mv S1. assert (S1 : steps a s3 (on_new_connection c s3)) by eauto with st. mv S1. eauto with st.
Qed.

Lemma st_listened a c z s : Inv s -> In c (lpend s) -> steps a s (listened c z s).
Proof.
  intros H P. unfold listened.
  assert (S1 : steps a s (set_lpend (rm c (lpend s)) s)) by (apply steps_one, M_lpend, sub_rm).
  assert (X1 : vacant (set_lpend (rm c (lpend s)) s) c).
  { unfold vacant. cbn. destruct (I_pendc s H c) as [A B]; [apply in_app_iff; auto|]. repeat split; trivial.
    intro X. apply in_app_iff, or_comm, in_app_iff in X. revert X.
    apply notin_rm; [apply nodup_comm, (I_pend s H)|exact P]. }
  mvn S1 s1. pose proof (st_listen_cb a c z s1 ltac:(assumption) X1) as S2. mvn S2 s2. eauto with st.
Qed.
Lemma st_accept_failed a s : steps a s (accept_failed s).
Proof. unfold accept_failed. destruct (_ && _); [apply steps_refl|now apply st_emit]. Qed.
Lemma st_accepted a x s : Inv s -> steps a s (accepted x s).
Proof.
  intro H. unfold accepted. destruct (_ && _); [apply steps_refl|].
  pose proof (created_unused s H) as U. pose proof (st_create a s) as S.
  destruct (conn_create s) as [s1 n]. cbn [fst snd] in U, S. mvn S s2. cbv zeta.
  assert (S : steps a s2 (set_status n Handshaking s2)).
  { apply st_status; [assumption|]. apply status_ok; auto; try discriminate. apply U. }
  assert (ST : k_st (cs (set_status n Handshaking s2) n) = Handshaking) by (now rewrite cs_set_status, N.eqb_refl).
  apply (unused_status _ _ Handshaking) in U. mvn S s3.
  set (f := fun k => set_k_addr x (set_k_kind KSock (set_k_fd true k))).
  assert (S : steps a s3 (on_c n f s3)).
  { destruct U as (L & B & K & P). destruct (I_conn s3 ltac:(assumption) n) as (A1 & A2 & A3 & A4).
    apply steps_one, M_conn; try reflexivity.
    - unfold f, conn_ok. cbn. repeat split; auto; congruence.
    - congruence.
    - intros [X|X]; [contradiction|lia]. }
  mvn S s4. now apply st_new.
Qed.
Lemma st_closed a c s : steps a s (peer_closed c s).
Proof. unfold peer_closed. destruct (linked s c); [apply st_creset|apply steps_refl]. Qed.
#[export] Hint Resolve st_connected st_listened st_accepted st_closed : st.

(** ** Messages *)
Lemma st_fault_of a c s : Inv s -> steps a s (fault_of c s).
Proof.
  intro H. unfold fault_of. destruct (k_bind (cs s c)) as [e|] eqn:B; [|go].
  pose proof (bound_range s c e H B) as R. go.
Qed.
#[export] Hint Resolve st_fault_of : st.
Lemma st_transfer_rsp a h w z s : Inv s -> steps a s (fst (transfer_rsp h w z s)).
Proof. intro H. unfold transfer_rsp. go. Qed.
#[export] Hint Resolve st_transfer_rsp : st.
Lemma st_forward a rsp h w f t s : steps a s (fst (fst (fst (forward rsp h w f t s)))).
Proof.
  unfold forward. destruct (t =? 0); [apply steps_refl|]. destruct (_ =? t); [apply steps_refl|].
  destruct (remote true s t) as [[r [e|]] [c|]]; try apply steps_refl.
  destruct (_ && _); [apply steps_refl|]. cbv zeta.
  pose proof (st_send_on a c {| m_head := set_ret_src (h_ret h) (my_id s) h; m_body := BData rsp w |} s) as S.
  destruct (send_on _ _ _) as [s1 z]. exact S.
Qed.
#[export] Hint Resolve st_forward : st.
Lemma st_connect_sync a x y s : Inv s -> steps a s (fst (connect_sync x y s)).
Proof. intro H. unfold connect_sync. go. Qed.
#[export] Hint Resolve st_connect_sync : st.
Lemma st_data_req a c h w s : Inv s -> steps a s (fst (data_req c h w s)).
Proof. intro H. unfold data_req. go. Qed.
Lemma st_data_rsp a c h w s : Inv s -> steps a s (fst (data_rsp c h w s)).
Proof. intro H. unfold data_rsp. go. Qed.
Lemma st_sync_msg a rsp c h s : steps a s (fst (sync_msg rsp c h s)).
Proof. unfold sync_msg. destruct (negb _); [apply steps_refl|]. destruct (_ && _); apply steps_refl. Qed.
Lemma st_reg_deny a c z q s : Inv s -> steps a s (fst (reg_deny c z q s)).
Proof. intro H. unfold reg_deny. go. Qed.
#[export] Hint Resolve st_data_req st_data_rsp st_sync_msg st_reg_deny : st.
Lemma st_parent_reg_done a s : Inv s -> steps a s (parent_reg_done s).
Proof. intro H. unfold parent_reg_done. go. Qed.
#[export] Hint Resolve st_parent_reg_done : st.
Lemma st_reg_rsp a c h r s : Inv s -> steps a s (fst (reg_rsp c h r s)).
Proof.
  intro H. unfold reg_rsp. cbv zeta. set (ok := keys_ok _ _). clearbody ok.
  assert (S : steps a s (emit (TReg c (h_ret h)) s)) by eauto with st. mvn S s1.
  destruct (_ || _).
  - assert (S : steps a s1 (match k_bind (cs s1 c) with Some e => gc_ep (d_ep (es s1 e)) s1 | None => s1 end)).
    { destruct (k_bind (cs s1 c)) as [e|] eqn:B; [|apply steps_refl].
      apply st_gc_ep; [assumption|]. now destruct (bound_alive s1 c e ltac:(assumption) B). }
    mvn S s2. go.
  - destruct (nst s1) eqn:N; try (assert (N' : nst s1 <> NCreated) by (rewrite N; discriminate)); try solve [go].
    destruct (is_parent s1 (r_id r)) eqn:IP; [|go].
    assert (P : parent s1 <> None) by (unfold is_parent in IP; destruct (my_id s1 =? 0), (parent s1); discriminate).
    assert (S : steps a s1 (parent_reg_done s1)) by go.
    assert (N2 : nst (parent_reg_done s1) = nst s1 /\ parent (parent_reg_done s1) = parent s1)
      by (unfold parent_reg_done; cbv zeta; destruct (_ <? _); now split).
    destruct N2 as [N2 N3]. cbn [fst]. eapply steps_trans; [exact S|]. apply st_act; [rewrite N2, N; discriminate|]. right. right. now rewrite N3.
Qed.
#[export] Hint Resolve st_reg_rsp : st.
Lemma st_conn_syn a c h x s : Inv s -> steps a s (fst (conn_syn c h x s)).
Proof. intro H. unfold conn_syn. go. Qed.
Lemma st_ping_msg a c h t s : Inv s -> steps a s (fst (ping_msg c h t s)).
Proof. intro H. unfold ping_msg. go. Qed.
Lemma st_pong_msg a c h t s : Inv s -> steps a s (fst (pong_msg c h t s)).
Proof. intro H. unfold pong_msg. go. Qed.
#[export] Hint Resolve st_conn_syn st_ping_msg st_pong_msg : st.

Lemma st_open_channels e can l : forall has s, Inv s -> alive s e ->
  steps true s (fst (open_channels e can l has s)).
Proof.
  induction l as [|x r IH]; intros has s H A; cbn [open_channels]; [apply steps_refl|].
  assert (R : 0 < e_ref e < nexte s) by (apply A).
  destruct x as [|y x]; [now apply IH|]. cbv zeta.
  destruct (_ && is_duplex _); [now apply IH|]. destruct (_ && _); [now apply IH|].
  destruct (_ && _); [now apply IH|]. destruct (_ && _).
  - assert (S : steps true s (fst (connect_ep (y :: x) (e_ref e) s))) by eauto with st.
    destruct (connect_ep _ _ _) as [s1 z]. cbn [fst] in S. mvn S s2.
    destruct (z <? 0)%Z; [now apply IH|].
    assert (S : steps true s2 (add_listen (e_ref e) (y :: x) s2)) by eauto with st. mvn S s3. now apply IH.
  - assert (S : steps true s (add_listen (e_ref e) (y :: x) s)) by eauto with st. mvn S s3. now apply IH.
Qed.
#[export] Hint Resolve st_open_channels : st.
Lemma st_welcome c e r s : Inv s -> alive s e -> c < nextc s -> steps true s (welcome c e r s).
Proof. intros H A L. unfold welcome. assert (R : 0 < e_ref e < nexte s) by (apply A). go. Qed.
#[export] Hint Resolve st_welcome : st.
Lemma get_endpoint_tabled s i e : get_endpoint s i = Some e -> tabled s e.
Proof.
  unfold get_endpoint, tabled. destruct (is_parent s i); [auto|].
  unfold find_route. destruct (lower_bound _ _) as [[r x]|] eqn:L; [|discriminate].
  apply lower_bound_in in L. intro E. assert (x = e) as ->.
  { destruct (e_id x =? i) eqn:X; [rewrite X in E; congruence|].
    destruct (contain_id r i); [rewrite X in E|]; discriminate. }
  do 2 right. left. apply in_map_iff. now exists (r, e).
Qed.
Lemma ep_create_spec i subs p h s : Inv s ->
  let s' := fst (ep_create i subs p h s) in let e := snd (ep_create i subs p h s) in
  alive s' e /\ ~ In (TAdded (e_ref e)) (log s').
Proof.
  intros H. unfold ep_create. cbn [fst snd]. unfold alive. split; [split|].
  - rewrite (keeps (f := nexte) (g := insert_ping _)). cbn [e_ref nexte set_nexte]. pose proof (I_zero s H). lia.
  - rewrite insert_ping_ep. cbn [e_ref es set_nexte set_es]. unfold upd. now rewrite N.eqb_refl.
  - rewrite (keeps (f := log) (g := insert_ping _)). cbn [e_ref log set_nexte set_es]. intro X.
    pose proof (I_log s H (nexte s) (or_introl X)). lia.
Qed.
Lemma st_addep x s : nst s <> NCreated -> alive s x -> ~ In (TAdded (e_ref x)) (log s) -> e_id x <> 0 ->
  steps true s (fst (add_endpoint x s)).
Proof. intros. now apply steps_one, M_addep. Qed.
Lemma st_reg_body c r s : Inv s -> c < nextc s -> nst s <> NCreated -> steps true s (fst (reg_body c r s)).
Proof.
  intros H L N. unfold reg_body. destruct (is_connected s c); [go|].
  destruct (N.eqb_spec (r_id r) 0) as [Z0|Z0]; [go|].
  destruct (get_endpoint s (r_id r)) as [e|] eqn:GE.
  - destruct (_ && _); [apply steps_refl|].
    assert (A : alive s e) by (apply (I_tab s H), (get_endpoint_tabled s (r_id r)), GE).
    assert (R : 0 < e_ref e < nexte s) by (apply A). go.
  - destruct (reg_confs _ _); [|go]. destruct (_ && _); [apply steps_refl|].
    destruct (endpoint_subnets _ _) as [subs|]; [|go].
    pose proof (st_epcreate true (r_id r) subs (r_pid r) (r_host r) s) as S.
    destruct (ep_create_spec (r_id r) subs (r_pid r) (r_host r) s H) as [A T].
    assert (Z1 : e_id (snd (ep_create (r_id r) subs (r_pid r) (r_host r) s)) <> 0) by exact Z0.
    destruct (ep_create _ _ _ _ _) as [s1 e]. cbn [fst snd] in *. mvn S s2. cbv zeta.
    assert (R : 0 < e_ref e < nexte s2) by (apply A).
    set (bad := if bytes_eqb _ _ then _ else _). clearbody bad. destruct (negb _); [go|].
    pose proof (st_addep e s2 ltac:(assumption) A T Z1) as S. destruct (add_endpoint e s2) as [s3 z].
    cbn [fst] in S. mvn S s4. go.
Qed.
#[export] Hint Resolve st_reg_body : st.
Lemma st_reg_req c h r s : Inv s -> c < nextc s -> nst s <> NCreated -> steps true s (fst (reg_req c h r s)).
Proof. intros H L N. unfold reg_req. go. Qed.
#[export] Hint Resolve st_reg_req : st.
(** Whether a message is a registration that passes the token check. *)
Definition admitted (s : node) (m : msg) : bool :=
  match m_body m with
  | BReg false r => (ver <=? h_ver (m_head m))%Z && keys_ok (cf s) (r_keys r)
  | _ => false
  end.
Lemma st_dispatch a c m s : Inv s -> c < nextc s -> nst s <> NCreated -> (admitted s m = true -> a = true) ->
  steps a s (fst (dispatch_msg c m s)).
Proof.
  intros H L N A. unfold dispatch_msg. unfold admitted in A. destruct (m_body m) as [[] ?|[] ?|?|[] r|?|[] ?|]; try solve [go].
  unfold reg_req. destruct (h_ver (m_head m) <? ver)%Z eqn:V; [go|].
  destruct (keys_ok (cf s) (r_keys r)) eqn:K; [|go; discriminate].
  assert (a = true) as ->. { apply A. rewrite Bool.andb_true_r. apply Z.leb_le. apply Z.ltb_ge in V. exact V. }
  go.
Qed.
#[export] Hint Resolve st_dispatch : st.
Lemma st_on_recv a c m s : Inv s -> c < nextc s -> nst s <> NCreated -> (admitted s m = true -> a = true) ->
  steps a s (on_recv c m s).
Proof. intros H L N A. unfold on_recv. go. Qed.
Definition admitting (s : node) (i : item) : bool :=
  match i with RMsg _ m => admitted s m | _ => false end.
Lemma admitted_stamp s s' c m : cf s' = cf s -> admitted s' (stamp s' c m) = admitted s m.
Proof.
  intro E. unfold stamp. destruct (k_bind (cs s' c)) as [e|]; [destruct (_ =? 0)|]; unfold admitted; rewrite E; reflexivity.
Qed.
Lemma st_recv_item a c i s : Inv s -> c < nextc s -> nst s <> NCreated -> (admitting s i = true -> a = true) ->
  steps a s (recv_item c i s).
Proof.
  intros H L N A. unfold recv_item. destruct i as [z|n|n m]; [go|go|]. cbv zeta.
  set (f := fun k => set_k_pull (bump (k_pull k) n) k).
  assert (S : steps a s (on_c c f s)) by (unfold f; eauto with st).
  assert (A1 : admitted (on_c c f s) (stamp (on_c c f s) c m) = true -> a = true).
  { rewrite (admitted_stamp s (on_c c f s) c m eq_refl). exact A. }
  mvn S s1. now apply st_on_recv.
Qed.
#[export] Hint Resolve st_on_recv st_recv_item : st.

(** ** Periodic work *)
Lemma st_fold {A} a (P : node -> A -> Prop) (f : node -> A -> node) :
  (forall s x, Inv s -> P s x -> steps a s (f s x)) ->
  (forall s s' x, grow s s' -> P s x -> P s' x) ->
  forall l s, Inv s -> (forall x, In x l -> P s x) -> steps a s (fold_left f l s).
Proof.
  intros F M. induction l as [|x r IH]; intros s H Q; cbn [fold_left]; [apply steps_refl|].
  pose proof (F s x H (Q x (or_introl eq_refl))) as S.
  pose proof (steps_grow _ _ _ H S) as G. pose proof (steps_Inv _ _ _ S H) as I1.
  refine (steps_trans _ _ _ _ S _). apply IH; [assumption|]. intros y Y. apply (M s); [assumption|]. apply Q. now right.
Qed.
(** Every item received is an admitted registration only if [a]. *)
Lemma st_proc_items a n c : forall l s, Inv s -> c < nextc s -> nst s <> NCreated ->
  a = true \/ (forall i, In i l -> match i with RMsg _ m => match m_body m with BReg false _ => False | _ => True end | _ => True end) ->
  steps a s (proc_items n c l s).
Proof.
  induction n as [|n IH]; intros l s H L N A; cbn [proc_items]; [apply steps_refl|].
  assert (RI : forall i, In i l -> steps a s (recv_item c i s)).
  { intros i J. apply st_recv_item; trivial. destruct A as [A|A]; [intros _; exact A|].
    specialize (A i J). unfold admitting, admitted. destruct i as [|?|? m]; try discriminate.
    destruct (m_body m) as [[] ?|[] ?|?|[] r|?|[] ?|]; try discriminate. contradiction. }
  assert (RE : forall z, steps a s (recv_item c (RErr z) s)) by (intro; apply st_recv_item; trivial; discriminate).
  destruct (k_kind (cs s c)); try apply RE. destruct l as [|i r]; [apply steps_refl|].
  assert (S : steps a s (recv_item c i s)) by (apply RI; now left).
  assert (A' : a = true \/ (forall i, In i r -> match i with RMsg _ m => match m_body m with BReg false _ => False | _ => True end | _ => True end)).
  { destruct A as [A|A]; [now left|right]. intros j J. apply A. now right. }
  destruct i as [z|m|m x]; [apply RE| |]; mvn S s1; apply IH; trivial.
Qed.
Lemma kind_fresh s c : Inv s -> k_kind (cs s c) <> KNone -> c < nextc s.
Proof. intros H K. destruct (N.lt_ge_cases c (nextc s)) as [|X]; [assumption|]. now elim K; apply (I_freshc s H). Qed.
Lemma st_proc_one s p : Inv s -> nst s <> NCreated -> steps true s (proc_one s p).
Proof.
  intros H N. destruct p as [c l]. unfold proc_one. destruct (_ && _) eqn:E; [|apply steps_refl].
  assert (L : c < nextc s).
  { apply kind_fresh; [assumption|]. apply andb_prop in E as [_ E]. destruct (k_kind (cs s c)); discriminate. }
  assert (S : steps true s (proc_items (N.to_nat (x_loop (cf s))) c l s)) by (apply st_proc_items; auto).
  mvn S s1. go.
Qed.
Lemma st_procs_all l s : Inv s -> nst s <> NCreated -> steps true s (fold_left proc_one l s).
Proof.
  intros H N. apply (st_fold true (fun s _ => nst s <> NCreated)); auto.
  - intros. now apply st_proc_one.
  - intros s1 s2 _ G. apply (carry_n _ _ G).
Qed.
Lemma st_timers a l s : sub l (connecting s) -> steps a s (set_connecting l s).
Proof. intro. now apply steps_one, M_timers. Qed.
Lemma st_sweep a now n : forall s, Inv s -> steps a s (sweep n now s).
Proof.
  induction n as [|n IH]; intros s H; cbn [sweep]; [apply steps_refl|].
  destruct (connecting s) as [|[t c] r] eqn:C; [apply steps_refl|].
  destruct (is_connected s c).
  - assert (S : steps a s (set_connecting r s)) by (apply st_timers; rewrite C; apply sub_tail). mvn S s1. now apply IH.
  - destruct (now <=? t); [apply steps_refl|].
    assert (S : steps a s (conn_reset c s)) by eauto with st. cbv zeta. mvn S s1.
    assert (S : steps a s1 (match connecting s1 with
                     | (t', c') :: r' => if c' =? c then set_connecting r' (emit (TInvalid c) s1) else s1
                     | [] => s1 end)).
    { destruct (connecting s1) as [|[t' c'] r'] eqn:C1; [apply steps_refl|]. destruct (c' =? c); [|apply steps_refl].
      refine (steps_trans _ _ _ _ (st_emit a (TInvalid c) s1 Logic.I Logic.I) _). apply st_timers.
      change (connecting (emit (TInvalid c) s1)) with (connecting s1). rewrite C1. apply sub_tail. }
    mvn S s2. now apply IH.
Qed.
#[export] Hint Resolve st_sweep : st.
Lemma st_fault_drop a h e s : Inv s -> 0 < e < nexte s -> steps a s (fst (fault_drop h e s)).
Proof. intros H R. unfold fault_drop. go. Qed.
#[export] Hint Resolve st_fault_drop : st.
Lemma st_ping_endpoint a h e s : Inv s -> 0 < e < nexte s -> steps a s (fst (ping_endpoint h e s)).
Proof. intros H R. unfold ping_endpoint. go. Qed.
Lemma st_idle_out a n e s : Inv s -> steps a s (fst (idle_out n e s)).
Proof. intro H. unfold idle_out. go. Qed.
#[export] Hint Resolve st_ping_endpoint st_idle_out : st.
Lemma st_parent_op a now s : Inv s -> steps a s (parent_op now s).
Proof.
  intro H. unfold parent_op. destruct (_ && _); [|apply steps_refl].
  destruct (parent s) as [p|] eqn:P; [|go].
  assert (A : alive s p) by (apply (I_tab s H); right; now left).
  assert (R : 0 < e_ref p < nexte s) by (apply A). destruct (ctrl_conn s p); go.
Qed.
#[export] Hint Resolve st_parent_op : st.

(** The clock does not move while endpoints are pinged. *)
Lemma sec_fault_drop h e s : sec (fst (fault_drop h e s)) = sec s.
Proof.
  unfold fault_drop. pose proof (keeps2 (f := sec) (h := ep_fault e) s) as E.
  destruct (ep_fault e s) as [s1 g]. cbn [fst] in *.
  destruct (g && negb h); [rewrite (keeps (f := sec) (g := ep_drop e))|]; exact E.
Qed.
Lemma sec_ping_endpoint h e s : sec (fst (ping_endpoint h e s)) = sec s.
Proof.
  unfold ping_endpoint.
  assert (E0 : sec (fst (if d_ping (es s e) =? 0 then (s, false) else fault_drop h e s)) = sec s).
  { destruct (_ =? 0); [reflexivity|apply sec_fault_drop]. }
  destruct (if d_ping (es s e) =? 0 then _ else _) as [s1 g]. cbn [fst] in E0. rewrite <- E0. clear E0.
  destruct g; [reflexivity|]. destruct (self s1); [|reflexivity]. destruct (my_id s1 =? 0); [reflexivity|].
  destruct (ctrl_conn _ _) as [c|]; [|cbn [fst]; apply sec_fault_drop].
  pose proof (keeps2 (f := sec) (h := alloc_seq) s1) as E1. destruct (alloc_seq s1) as [s2 q]. cbn [fst] in E1.
  assert (E2 : sec (fst (send_ping c q s2)) = sec s2) by (unfold send_ping; fr1).
  destruct (send_ping c q s2) as [s3 r]. cbn [fst] in E2. rewrite <- E1, <- E2.
  destruct (r <? 0)%Z; [cbn [fst]; apply sec_fault_drop|]. cbn [fst].
  change (sec (on_e ?a ?b ?z)) with (sec z). destruct (data_conn _ _ _); [reflexivity|].
  pose proof (keeps2 (f := sec) (h := ep_fault e) s3) as E3. destruct (ep_fault e s3) as [s4 g]. cbn [fst] in E3.
  destruct (_ && _); [|exact E3]. change (sec (emit ?a ?z)) with (sec z). rewrite (keeps (f := sec) (g := ep_drop e)).
  exact E3.
Qed.
Lemma sec_idle_out n e s : sec (fst (idle_out n e s)) = sec s.
Proof.
  unfold idle_out. destruct (is_available s e); [reflexivity|].
  pose proof (keeps2 (f := sec) (h := created e) s) as E. now destruct (created e s).
Qed.
Lemma head_own_ping x s t e r : Inv s -> pings (add_ping x s) = (t, e) :: r -> e = e_ref x -> sec s < t.
Proof.
  intros H E X. unfold add_ping, insert_ping in E. destruct (_ || _) eqn:B.
  - exfalso. rewrite pings_clear_ping in E. destruct (d_timer (es s (e_ref x))) eqn:T.
    + assert (In (t, e) (filter (fun p => negb (snd p =? e_ref x)) (pings s))) as J by (rewrite E; now left).
      apply filter_In in J as [_ J]. cbn in J. subst e. now rewrite N.eqb_refl in J.
    + assert (In e (map snd (pings s))) as J by (rewrite E; now left). subst e.
      apply (I_timer s H) in J. congruence.
  - cbn [pings on_e set_es set_pings] in E.
    rewrite (keeps (f := sec) (g := clear_ping _)), (keeps (f := cf) (g := clear_ping _)) in E.
    assert (P : 0 < x_ping (cf s)).
    { apply Bool.orb_false_elim in B as [B _]. apply Bool.orb_false_elim in B as [_ B].
      rewrite (keeps (f := cf) (g := clear_ping _)) in B. apply N.eqb_neq in B. lia. }
    assert (NI : forall p, In p (pings (clear_ping (e_ref x) s)) -> snd p <> e_ref x).
    { intros p J Y. rewrite pings_clear_ping in J. destruct (d_timer (es s (e_ref x))) eqn:T.
      - apply filter_In in J as [_ J]. rewrite Y, N.eqb_refl in J. discriminate.
      - assert (In (e_ref x) (map snd (pings s))) as K by (apply in_map_iff; eauto).
        apply (I_timer s H) in K. congruence. }
    destruct (pings (clear_ping (e_ref x) s)) as [|p l]; cbn [app] in E.
    + injection E as <- <- <-. lia.
    + injection E as -> _. exfalso. apply (NI (t, e)); [now left|exact X].
Qed.
Lemma st_release a nx s : (forall e, nx = Some e -> 0 < e < nexte s) -> steps a s (release nx s).
Proof. intro R. unfold release. destruct nx; [apply st_drop_ep; auto|apply steps_refl]. Qed.
Lemma carry_nx s s' (nx : option N) : grow s s' ->
  (forall e, nx = Some e -> 0 < e < nexte s) -> (forall e, nx = Some e -> 0 < e < nexte s').
Proof. intros G R e E. apply (carry_e s); auto. Qed.
Lemma st_ping_loop a now n : forall nx s s', Inv s -> now <= sec s -> (forall e, nx = Some e -> 0 < e < nexte s) ->
  ping_loop n now nx s = Some s' -> steps a s s'.
Proof.
  induction n as [|n IH]; intros nx s s' H W R X; cbn [ping_loop] in X; [discriminate|].
  destruct (pings s) as [|[t e0] l] eqn:P; [injection X as <-; now apply st_release|].
  destruct (now <? t); [injection X as <-; now apply st_release|]. cbv zeta in X.
  set (e := match nx with Some e => e | None => e0 end) in X.
  assert (RE : 0 < e < nexte s).
  { unfold e. destruct nx as [x|]; [now apply R|]. assert (T : d_timer (es s e0) = true).
    { apply (I_timer s H). rewrite P. now left. }
    assert (D : (0 < e0 < nexte s) \/ ~ (0 < e0 < nexte s)) by lia. destruct D as [D|D]; [exact D|].
    apply (I_freshe s H) in D as [_ D]. congruence. }
  clearbody e. clear R.
  pose proof (sec_idle_out now e s) as W1. assert (S : steps a s (fst (idle_out now e s))) by eauto with st.
  destruct (idle_out now e s) as [s1 out]. cbn [fst] in W1, S. rewrite <- W1 in W. clear W1. mvn S s2. clear P.
  destruct out.
  - assert (A : alive s2 (d_ep (es s2 e))) by (now apply alive_d).
    set (x := d_ep (es s2 e)) in *. clearbody x.
    assert (S : steps a s2 (gc_ep x s2)) by eauto with st.
    rewrite <- (keeps (f := sec) (g := gc_ep x)) in W. mvn S s3.
    assert (S : steps a s3 (add_ping x s3)) by eauto with st.
    rewrite <- (keeps (f := sec) (g := add_ping x)) in W. mvn S s4.
    eapply IH; [..|exact X]; trivial. intros y [= <-]. assumption.
  - assert (S : steps a s2 (if match parent s2 with Some p => e_ref p =? e | None => false end then s2
                       else fst (ping_endpoint true e s2))).
    { destruct (match parent s2 with Some p => e_ref p =? e | None => false end); [apply steps_refl|eauto with st]. }
    assert (W3 : now <= sec (if match parent s2 with Some p => e_ref p =? e | None => false end then s2
                       else fst (ping_endpoint true e s2))).
    { destruct (match parent s2 with Some p => e_ref p =? e | None => false end); [|rewrite sec_ping_endpoint]; exact W. }
    clear W. mvn S s3.
    assert (A : alive s3 (d_ep (es s3 e))) by (now apply alive_d).
    assert (EX : e_ref (d_ep (es s3 e)) = e) by (now apply (I_ref s3)).
    set (x := d_ep (es s3 e)) in *. clearbody x.
    assert (HP : forall t e r, pings (add_ping x s3) = (t, e) :: r -> e = e_ref x -> sec s3 < t) by
      (intros; eapply head_own_ping; eauto).
    assert (S : steps a s3 (add_ping x s3)) by eauto with st.
    rewrite <- (keeps (f := sec) (g := add_ping x)) in W3, HP. mvn S s4.
    destruct (pings s4) as [|[t2 e2] r] eqn:P4; [injection X as <-; now apply st_drop_ep|].
    destruct (now <? t2) eqn:NT; [injection X as <-; now apply st_drop_ep|].
    assert (S : steps a s4 (ep_drop e s4)) by eauto with st.
    assert (W5 : now <= sec (ep_drop e s4)) by (now rewrite (keeps (f := sec) (g := ep_drop e))).
    destruct (negb (t2 =? t)).
    + mvn S s5. eapply IH; [..|exact X]; trivial. discriminate.
    + destruct (N.eqb_spec e2 e) as [->|NE].
      * exfalso. specialize (HP t2 e r eq_refl (eq_sym EX)). apply N.ltb_ge in NT. lia.
      * assert (R2 : 0 < e2 < nexte s4).
        { assert (T : d_timer (es s4 e2) = true) by (apply (I_timer s4); [assumption|]; rewrite P4; now left).
          assert (D : (0 < e2 < nexte s4) \/ ~ (0 < e2 < nexte s4)) by lia. destruct D as [D|D]; [exact D|].
          apply (I_freshe s4) in D as [_ D]; [congruence|assumption]. }
        mvn S s5. eapply IH; [..|exact X]; trivial. intros y [= <-]. assumption.
Qed.
Lemma st_drops a l s : Inv s -> (forall e, In e l -> 0 < e < nexte s) -> steps a s (fold_left drop_ep l s).
Proof.
  intros H R. apply (st_fold a (fun s e => 0 < e < nexte s)); trivial.
  - intros. unfold drop_ep. now apply st_drop_ep.
  - intros s1 s2 e G. apply (carry_e _ _ _ G).
Qed.
Lemma st_gc_one a s x : Inv s -> alive s x -> steps a s (gc_one s x).
Proof.
  intros H A. unfold gc_one. assert (R : 0 < e_ref x < nexte s) by (apply A). cbv zeta.
  set (s1 := emit _ s). assert (S1 : steps a s s1) by (apply st_emit; exact Logic.I).
  destruct (is_available s1 (e_ref x)) eqn:V; [exact S1|].
  refine (steps_trans _ _ _ _ S1 _). refine (steps_trans _ _ _ _ (st_ereset a false (e_ref x) s1 R) _).
  apply st_rmep. right. right. exists (e_ref x). split; [reflexivity|].
  destruct (calm_ep_reset None false (e_ref x) s1) as [(k & L & Q) _].
  do 4 eexists. split; [rewrite L; reflexivity|]. split; [exact Q|].
  unfold is_available in V. change (es s1) with (es s) in V. destruct (d_ctrl (es s (e_ref x))); [right|now left].
  change (is_running s1) with (is_running s) in V. clear - V.
  induction (d_data (es s (e_ref x))) as [|c l IH]; [reflexivity|]. cbn [existsb filter] in *.
  apply orb_false_iff in V as [V1 V2]. rewrite V1. now apply IH.
Qed.
Lemma st_collect a s : Inv s -> steps a s (collect s).
Proof.
  intro H. unfold collect. cbv zeta.
  set (s1 := match gce s with [] => s | _ => _ end).
  assert (S : steps a s s1).
  { subst s1. destruct (gce s) as [|x l] eqn:G; [apply steps_refl|].
    assert (A : forall y, In y (x :: l) -> alive s y).
    { intros y Y. apply (I_tab s H). unfold tabled. rewrite G. auto. }
    assert (S : steps a s (set_gce [] s)) by eauto with st.
    assert (A1 : forall y, In y (x :: l) -> alive (set_gce [] s) y) by (intros y Y; now apply A).
    clear A G. mvn S s1. set (l1 := x :: l) in *. clearbody l1.
    assert (S : steps a s1 (set_fl_gce true s1)) by eauto with st.
    assert (A : forall y, In y l1 -> alive (set_fl_gce true s1) y) by (intros y Y; now apply A1).
    clear A1. mvn S s2.
    assert (S : steps a s2 (fold_left gc_one l1 s2)).
    { apply (st_fold a alive); trivial; [intros; now apply st_gc_one|]. intros u v w X. now apply alive_grow. }
    assert (A3 : forall e, In e (map e_ref l1) -> 0 < e < nexte (fold_left gc_one l1 s2)).
    { intros e E. apply in_map_iff in E as (y & <- & Y).
      eapply alive_ref; [|reflexivity]. eapply alive_grow; [eapply steps_grow; [|exact S]; assumption|]. now apply A. }
    clear A. mvn S s3.
    assert (S : steps a s3 (set_gce [] s3)) by eauto with st.
    assert (A4 : forall e, In e (map e_ref l1) -> 0 < e < nexte (set_gce [] s3)) by exact A3.
    clear A3. mvn S s4.
    assert (S : steps a s4 (fold_left drop_ep (map e_ref l1) s4)) by (now apply st_drops).
    mvn S s5. eauto with st. }
  clearbody s1. mvn S s2. destruct (gcc s2) as [|c l]; [apply steps_refl|].
  set (l1 := c :: l). clearbody l1.
  assert (S : steps a s2 (set_gcc [] (set_fl_gcc true s2))) by go. mvn S s3.
  assert (S : steps a s3 (fold_left (fun s c => conn_drop c s) l1 s3)).
  { apply (st_fold a (fun _ _ => True)); trivial. intros. apply st_drop_conn. }
  mvn S s4. eauto with st.
Qed.
#[export] Hint Resolve st_collect : st.

(** ** API calls *)
Lemma st_start a now s : Inv s -> nst s <> NCreated -> steps a (set_sec now s) (fst (start now s)).
Proof.
  intros H N. assert (H1 : Inv (set_sec now s)) by (destruct H; now constructor).
  assert (N1 : nst (set_sec now s) <> NCreated) by exact N. unfold start. cbv zeta.
  set (s1 := set_sec now s) in *. clearbody s1.
  assert (Q : steps a s1 (fst (if negb (my_id s1 =? 0) && negb (bytes_eqb (x_parent (cf s1)) [])
      then match parent s1 with
           | Some _ => (s1, E_OK)
           | None =>
               let (s, r) := connect (x_parent (cf s1)) s1 in
               if (0 <=? r)%Z
               then (set_nst NConnecting (set_popr (sec s + x_first (cf s)) s), E_OK)
               else (set_nst NLost (set_popr (sec s + x_retry (cf s)) s), E_OK)
           end
      else (on_actived s1, E_OK)))).
  { clear s H N. destruct (negb (my_id s1 =? 0) && negb (bytes_eqb (x_parent (cf s1)) [])) eqn:B; [go|].
    cbn [fst]. apply st_act; [exact N1|]. destruct (N.eqb_spec (my_id s1) 0) as [Z|Z]; [now left|].
    destruct (x_parent (cf s1)); [right; now left|discriminate B]. }
  destruct (nst s); [contradiction|exact Q..].
Qed.
Lemma st_send_data a to ty b w q s : Inv s -> steps a s (fst (send_data to ty b w q s)).
Proof. intro H. unfold send_data. go. Qed.
Lemma st_send_custom a to l q s : Inv s -> steps a s (fst (send_custom to l q s)).
Proof. intro H. unfold send_custom. go. Qed.
Lemma find_route_tabled s i e : find_route (routes s) i = Some e -> tabled s e.
Proof.
  unfold find_route, tabled. destruct (lower_bound _ _) as [[r x]|] eqn:L; [|discriminate].
  apply lower_bound_in in L. intro E. assert (x = e) as -> by (destruct (_ =? _), (contain_id r i); congruence).
  do 2 right. left. apply in_map_iff. now exists (r, e).
Qed.
Lemma st_node_disconnect a i s : Inv s -> steps a s (fst (node_disconnect i s)).
Proof.
  intro H. unfold node_disconnect.
  assert (C : forall e, find_route (routes s) i = Some e ->
    steps a s (fst (let s := emit (TAsked i) s in
                    let s := match remove_child (routes s) i None, child_at (routes s) i with
                                  | (true, t), Some x => emit (TRemoved (e_ref x)) (set_routes t s)
                                  | _, _ => s
                                  end in (ep_reset None false (e_ref e) s, E_OK)))).
  { intros e F. assert (S0 : steps a s (emit (TAsked i) s)) by (apply steps_one, M_emit; exact I).
    assert (Q0 : exists l, log (emit (TAsked i) s) = TAsked i :: l) by (now exists (log s)).
    assert (H0 : Inv (emit (TAsked i) s)) by (eapply steps_Inv; eauto). change (routes s) with (routes (emit (TAsked i) s)) in F.
    change (let s := emit (TAsked i) s in ?f s) with (f (emit (TAsked i) s)).
    refine (steps_trans _ _ _ _ S0 _). clear S0. revert H0 F Q0. generalize (emit (TAsked i) s). clear H s. intros s H F Q0. assert (A : alive s e) by (now apply (I_tab s H), (find_route_tabled s i)).
    assert (R : 0 < e_ref e < nexte s) by (apply A). cbv zeta. cbn [fst].
    set (s1 := match remove_child (routes s) i None with (_, _) => _ end).
    assert (S : steps a s s1).
    { subst s1. destruct (remove_child (routes s) i None) as [[] t] eqn:RC; [|apply steps_refl].
      destruct (child_at (routes s) i) as [x|] eqn:CA; [|apply steps_refl].
      apply steps_one. eapply M_rmchild; eauto. }
    clearbody s1. mvn S s2. eauto with st. }
  destruct (parent s) as [p|] eqn:P.
  - destruct (N.eqb_spec i (e_id p)) as [E|].
    + assert (A : alive s p) by (apply (I_tab s H); right; now left).
      assert (R : 0 < e_ref p < nexte s) by (apply A). cbv zeta. cbn [fst].
      assert (S : steps a s (emit (TRemoved (e_ref p)) (set_parent None (emit (TAsked i) s)))).
      { refine (steps_trans _ _ _ _ (steps_one _ _ _ (M_emit a (TAsked i) s I I)) _). apply steps_one, M_rmparent; [exact P|]. exists (log s). now rewrite E. }
      mvn S s1. go.
    + destruct (find_route (routes s) i) as [e|]; [|apply steps_refl]. destruct (_ =? i); [now apply C|apply steps_refl].
  - destruct (find_route (routes s) i) as [e|]; [|apply steps_refl]. destruct (_ =? i); [now apply C|apply steps_refl].
Qed.
#[export] Hint Resolve st_start st_send_data st_send_custom st_node_disconnect : st.
