(** Invariant of a node and the small steps all its operations are made of. *)
From Verif Require Import Base Subnet Route Address NodeTypes NodeConn NodeCore NodeFrame NodeReset.
Local Open Scope N_scope.
Ltac Zify.zify_post_hook ::= idtac.

(** ** Logs *)
(** Entries that closing a connection may add. *)
Definition quiet (t : tr) : bool :=
  match t with TInvalid _ | TClose _ | TDown _ => true | _ => false end.
Definition calm (s s' : node) : Prop :=
  (exists l, log s' = l ++ log s /\ Forall (fun t => quiet t = true) l) /\
  (nst s' = nst s \/ (nst s = NConnecting /\ nst s' = NLost)).
Lemma calm_refl s : calm s s.
Proof. split; [exists []; split; [reflexivity|constructor]|now left]. Qed.
Lemma calm_trans s1 s2 s3 : calm s1 s2 -> calm s2 s3 -> calm s1 s3.
Proof.
  intros [(l1 & E1 & F1) N1] [(l2 & E2 & F2) N2]. split.
  - exists (l2 ++ l1). rewrite E2, E1, app_assoc. split; [reflexivity|]. now apply Forall_app.
  - intuition congruence.
Qed.
Lemma calm_same s s' : log s' = log s -> nst s' = nst s -> calm s s'.
Proof. intros E1 E2. split; [exists []; split; [exact E1|constructor]|now left]. Qed.
Lemma calm_emit t s : quiet t = true -> calm s (emit t s).
Proof. intro Q. split; [exists [t]; split; [reflexivity|now constructor]|now left]. Qed.
Lemma calm_rm_timer c s : calm s (rm_timer c s).
Proof.
  unfold rm_timer. destruct (in_timer s c); [|apply calm_refl].
  destruct (is_connected s c); [now apply calm_same|].
  eapply calm_trans; [apply (calm_emit (TInvalid c)); reflexivity|now apply calm_same].
Qed.
Lemma calm_set_status c v s : calm s (set_status c v s).
Proof.
  unfold set_status. destruct (cst_eqb _ v); [apply calm_refl|].
  assert (H : calm s (on_c c (set_k_st v) s)) by now apply calm_same.
  destruct v; try exact H. eapply calm_trans; [exact H|apply calm_rm_timer].
Qed.
Lemma calm_shutdown z s : calm s (shutdown z s).
Proof.
  unfold shutdown. destruct (fl_shut s); [apply calm_refl|]. cbn [fl_act set_fl_shut].
  destruct (fl_act s); [|now apply calm_same].
  eapply calm_trans; [now apply (calm_same s (set_fl_shut true s))|]. now apply calm_emit.
Qed.
Lemma calm_on_disconnect c s : calm s (on_disconnect c s).
Proof.
  unfold on_disconnect. destruct (nstate_eqb (nst s) NConnecting) eqn:E; [|apply calm_refl].
  assert (E' : nst s = NConnecting) by (destruct (nst s); try discriminate; reflexivity).
  cbn [andb]. destruct (negb (bytes_eqb _ _) && _); [|apply calm_refl].
  assert (H : calm s (set_popr (sec s + x_retry (cf s)) (set_nst NLost s))).
  { split; [exists []; split; [reflexivity|constructor]|right; now split]. }
  cbn [fl_act set_popr set_nst]. destruct (fl_act s); [exact H|].
  eapply calm_trans; [exact H|apply calm_shutdown].
Qed.
Lemma calm_disconnect c s : calm s (disconnect c s).
Proof.
  unfold disconnect. destruct (k_st (cs s c)); try apply calm_refl.
  all: cbv zeta; eapply calm_trans; [apply (calm_set_status c Disconnecting)|];
    set (s1 := set_status c Disconnecting s); clearbody s1;
    eapply calm_trans with (s2 := match k_kind (cs s1 c) with KNone => s1 | _ => emit (TClose c) s1 end);
    [destruct (k_kind _); try apply calm_refl; now apply calm_emit|];
    set (s2 := match k_kind (cs s1 c) with KNone => s1 | _ => _ end); clearbody s2;
    eapply calm_trans; [apply (calm_on_disconnect c)|];
    set (s3 := on_disconnect c s2); clearbody s3;
    eapply calm_trans; [|apply calm_set_status];
    destruct (k_proc _); now apply calm_same.
Qed.
Lemma calm_conn_close c s : calm s (conn_close c s).
Proof. unfold conn_close. eapply calm_trans; [apply calm_rm_timer|apply calm_disconnect]. Qed.
Lemma calm_conn_fin c s : calm s (conn_fin c s).
Proof. unfold conn_fin, gc_conn. destruct (_ || _); now apply calm_same. Qed.
Lemma calm_conn_reset_in c s : calm s (conn_reset_in c s).
Proof.
  unfold conn_reset_in. eapply calm_trans; [apply (calm_conn_close c)|].
  eapply calm_trans; [|apply calm_conn_fin]. now apply calm_same.
Qed.
Lemma calm_resets_in l s : calm s (resets_in l s).
Proof.
  revert s. induction l as [|c l IH]; intro s; [apply calm_refl|].
  change (resets_in (c :: l) s) with (resets_in l (conn_reset_in c s)).
  eapply calm_trans; [apply calm_conn_reset_in|apply IH].
Qed.
Lemma calm_clear_ping e s : calm s (clear_ping e s).
Proof. unfold clear_ping. destruct (d_timer _); now apply calm_same. Qed.
Lemma calm_gc_ep e s : calm s (gc_ep e s).
Proof. unfold gc_ep. destruct (_ || _); now apply calm_same. Qed.
Lemma calm_ep_reset b g e s : calm s (ep_reset b g e s).
Proof.
  rewrite ep_reset_eq. cbv zeta.
  set (s1 := match d_ctrl (es s e) with Some c => _ | None => s end).
  assert (H1 : calm s s1).
  { unfold s1. destruct (d_ctrl (es s e)); [|apply calm_refl].
    destruct (opt_eqb _ _); [now apply calm_same|].
    eapply calm_trans; [|apply calm_conn_reset_in]. now apply calm_same. }
  eapply calm_trans; [exact H1|]. clearbody s1. clear H1.
  eapply calm_trans; [apply (calm_resets_in (d_data (es s1 e)))|].
  set (s2 := resets_in _ s1). clearbody s2.
  set (s3 := on_e e _ s2). assert (H3 : calm s2 s3) by now apply calm_same.
  eapply calm_trans; [exact H3|]. clearbody s3. clear H3.
  eapply calm_trans; [apply (calm_clear_ping e)|].
  set (s4 := clear_ping e s3). clearbody s4.
  eapply calm_trans with (s2 := if g then s4 else gc_ep (d_ep (es s4 e)) s4).
  - destruct g; [apply calm_refl|apply calm_gc_ep].
  - now apply calm_same.
Qed.
Lemma calm_conn_reset c s : calm s (conn_reset c s).
Proof.
  unfold conn_reset. cbv zeta. eapply calm_trans; [apply (calm_conn_close c)|].
  set (s1 := conn_close c s). clearbody s1. eapply calm_trans; [|apply calm_conn_fin].
  destruct (k_bind (cs s1 c)) as [e|]; [|apply calm_refl].
  destruct (opt_eqb _ _); [apply calm_ep_reset|].
  destruct (memb _ _); [|apply calm_refl].
  set (s2 := on_e e _ _). assert (H2 : calm s1 s2) by now apply calm_same. clearbody s2.
  destruct (d_data (es s2 e)); [|exact H2].
  eapply calm_trans; [exact H2|apply calm_ep_reset].
Qed.

(** ** Other effects of resets *)
Lemma pings_clear_ping e s :
  pings (clear_ping e s) = if d_timer (es s e) then filter (fun p => negb (snd p =? e)) (pings s) else pings s.
Proof. unfold clear_ping. now destruct (d_timer (es s e)). Qed.
Lemma pings_ep_reset b g e s :
  pings (ep_reset b g e s) = if d_timer (es s e) then filter (fun p => negb (snd p =? e)) (pings s) else pings s.
Proof.
  rewrite ep_reset_eq. cbv zeta.
  set (s1 := match d_ctrl (es s e) with Some c => _ | None => s end).
  assert (E1 : es s1 = es s /\ pings s1 = pings s).
  { unfold s1. destruct (d_ctrl (es s e)); [|split; reflexivity].
    destruct (opt_eqb _ _); [split; reflexivity|]. split; [now rewrite (keeps (f := es))|now rewrite (keeps (f := pings))]. }
  destruct E1 as [E1 P1]. clearbody s1.
  set (s2 := resets_in _ s1).
  assert (E2 : es s2 = es s /\ pings s2 = pings s).
  { split; [rewrite <- E1; apply (keeps (f := es))|rewrite <- P1; apply (keeps (f := pings))]. }
  destruct E2 as [E2 P2]. clearbody s2.
  set (s3 := on_e e _ s2).
  assert (E3 : d_timer (es s3 e) = d_timer (es s e) /\ pings s3 = pings s).
  { unfold s3. rewrite es_on_e, N.eqb_refl, E2. split; [reflexivity|exact P2]. }
  destruct E3 as [E3 P3]. clearbody s3.
  set (s4 := clear_ping e s3).
  transitivity (pings s4).
  - destruct g; [reflexivity|]. exact (keeps (f := pings) (g := gc_ep _) s4).
  - unfold s4. now rewrite pings_clear_ping, E3, P3.
Qed.
Lemma pings_conn_reset c s : listed s ->
  pings (conn_reset c s) =
  match k_bind (cs s c) with
  | Some e => if drops (es s e) c && d_timer (es s e)
              then filter (fun p => negb (snd p =? e)) (pings s) else pings s
  | None => pings s
  end.
Proof.
  intro L. specialize (L c). unfold conn_reset. cbv zeta.
  assert (CC : k_bind (cs (conn_close c s) c) = k_bind (cs s c))
    by (rewrite cs_conn_close, N.eqb_refl; apply bind_closed).
  assert (EC : es (conn_close c s) = es s) by apply es_conn_close.
  assert (PC : pings (conn_close c s) = pings s) by apply (keeps (f := pings)).
  set (s1 := conn_close c s) in *. clearbody s1.
  rewrite (keeps (f := pings) (g := conn_fin c)), CC.
  destruct (k_bind (cs s c)) as [e|]; [|exact PC].
  specialize (L e eq_refl). rewrite EC. unfold drops.
  destruct (opt_eqb (d_ctrl (es s e)) (Some c)) eqn:C; cbn [orb].
  - rewrite pings_ep_reset, EC, PC. reflexivity.
  - assert (MD : memb c (d_data (es s e)) = true) by (now apply drops_data).
    rewrite MD. cbn [andb].
    set (s2 := on_e e _ _).
    assert (E2 : es s2 e = set_d_data (rm c (d_data (es s e))) (es s e)).
    { unfold s2. rewrite es_on_e, es_on_c, N.eqb_refl, EC. reflexivity. }
    assert (P2 : pings s2 = pings s) by exact PC.
    clearbody s2. rewrite E2. cbn [d_data set_d_data].
    destruct (rm c (d_data (es s e))) as [|c1 l] eqn:R; [|exact P2].
    rewrite pings_ep_reset, E2, P2. reflexivity.
Qed.
Lemma gce_gc_ep x s : gce (gc_ep x s) = gce s \/ gce (gc_ep x s) = gce s ++ [x].
Proof. unfold gc_ep. destruct (_ || _); [now left|now right]. Qed.
Lemma gce_ep_reset b g e s :
  gce (ep_reset b g e s) = gce s \/ gce (ep_reset b g e s) = gce s ++ [d_ep (es s e)].
Proof.
  rewrite ep_reset_eq. cbv zeta.
  set (s1 := match d_ctrl (es s e) with Some c => _ | None => s end).
  assert (E1 : es s1 = es s /\ gce s1 = gce s).
  { unfold s1. destruct (d_ctrl (es s e)); [|split; reflexivity].
    destruct (opt_eqb _ _); [split; reflexivity|]. split; [now rewrite (keeps (f := es))|now rewrite (keeps (f := gce))]. }
  destruct E1 as [E1 P1]. clearbody s1.
  set (s2 := resets_in _ s1).
  assert (E2 : es s2 = es s /\ gce s2 = gce s).
  { split; [rewrite <- E1; apply (keeps (f := es))|rewrite <- P1; apply (keeps (f := gce))]. }
  destruct E2 as [E2 P2]. clearbody s2.
  set (s3 := clear_ping e _).
  assert (E3 : d_ep (es s3 e) = d_ep (es s e) /\ gce s3 = gce s).
  { unfold s3. rewrite es_clear_ping, es_on_e, N.eqb_refl, E2. split; [reflexivity|].
    rewrite (keeps (f := gce) (g := clear_ping e)). exact P2. }
  destruct E3 as [E3 P3]. clearbody s3.
  change (gce (on_e e ?f ?x)) with (gce x). destruct g; [now left|].
  rewrite E3. destruct (gce_gc_ep (d_ep (es s e)) s3) as [-> | ->]; rewrite P3; auto.
Qed.
Lemma gce_conn_reset c s : listed s ->
  gce (conn_reset c s) = gce s \/
  exists e, k_bind (cs s c) = Some e /\ gce (conn_reset c s) = gce s ++ [d_ep (es s e)].
Proof.
  intro L. specialize (L c). unfold conn_reset. cbv zeta.
  assert (CC : k_bind (cs (conn_close c s) c) = k_bind (cs s c))
    by (rewrite cs_conn_close, N.eqb_refl; apply bind_closed).
  assert (EC : es (conn_close c s) = es s) by apply es_conn_close.
  assert (PC : gce (conn_close c s) = gce s) by apply (keeps (f := gce)).
  set (s1 := conn_close c s) in *. clearbody s1.
  rewrite (keeps (f := gce) (g := conn_fin c)), CC.
  destruct (k_bind (cs s c)) as [e|]; [|now left].
  specialize (L e eq_refl). rewrite EC.
  destruct (opt_eqb (d_ctrl (es s e)) (Some c)) eqn:C.
  - destruct (gce_ep_reset (Some c) false e s1) as [-> | ->]; [now left|].
    right. exists e. rewrite EC, PC. auto.
  - assert (MD : memb c (d_data (es s e)) = true) by (now apply drops_data).
    rewrite MD. set (s2 := on_e e _ _).
    assert (E2 : es s2 e = set_d_data (rm c (d_data (es s e))) (es s e)).
    { unfold s2. rewrite es_on_e, es_on_c, N.eqb_refl, EC. reflexivity. }
    assert (P2 : gce s2 = gce s) by exact PC.
    clearbody s2. destruct (d_data (es s2 e)); [|now left].
    destruct (gce_ep_reset (Some c) false e s2) as [-> | ->]; [left; congruence|].
    right. exists e. rewrite E2, P2. auto.
Qed.

(** ** The invariant *)
(** An endpoint object that exists. *)
Definition alive (s : node) (x : ep) : Prop :=
  0 < e_ref x < nexte s /\ d_ep (es s (e_ref x)) = x.
Definition tabled (s : node) (x : ep) : Prop :=
  self s = Some x \/ parent s = Some x \/ In x (map snd (routes s)) \/ In x (gce s).
(** A connection is not left in the transient state, waits for registration only while
    unbound, a socket that counts as connected is bound, and a disconnected one has no
    socket. *)
Definition conn_ok (k : conn) : Prop :=
  k_st k <> Disconnecting /\ (k_st k = Handshaking -> k_bind k = None) /\
  (k_kind k = KSock -> k_st k = Connected -> k_bind k <> None) /\
  (k_st k = Disconnected -> k_kind k <> KSock /\ k_kind k <> KListen).
Record Inv (s : node) : Prop := {
  I_zero : 0 < nexte s;
  I_bind : forall c e, k_bind (cs s c) = Some e <-> In c (conns (es s e));
  I_nodup : forall e, NoDup (conns (es s e));
  I_conn : forall c, conn_ok (cs s c);
  I_freshc : forall c, nextc s <= c -> k_bind (cs s c) = None /\ k_kind (cs s c) = KNone;
  I_freshe : forall e, ~ 0 < e < nexte s -> conns (es s e) = [] /\ d_timer (es s e) = false;
  I_ref : forall e, 0 < e < nexte s -> e_ref (d_ep (es s e)) = e;
  I_tab : forall x, tabled s x -> alive s x;
  I_pend : NoDup (pend s ++ lpend s);
  I_pendc : forall c, In c (pend s ++ lpend s) -> c < nextc s /\ k_kind (cs s c) = KNone;
  I_ping : NoDup (map snd (pings s));
  I_timer : forall e, d_timer (es s e) = true <-> In e (map snd (pings s));
  I_conning : NoDup (map snd (connecting s));
  I_conningc : forall p, In p (connecting s) -> snd p < nextc s;
  I_parent : parent s <> None -> my_id s <> 0;
  I_created : nst s = NCreated -> parent s = None /\ routes s = [];
  I_log : forall e, In (TAdded e) (log s) \/ In (TRemoved e) (log s) -> e < nexte s }.

Lemma Inv_listed s : Inv s -> listed s.
Proof. intros H c e B. now apply (I_bind s H). Qed.
Lemma bound_alive s c e : Inv s -> k_bind (cs s c) = Some e -> alive s (d_ep (es s e)) /\ e_ref (d_ep (es s e)) = e.
Proof.
  intros H B. assert (R : 0 < e < nexte s).
  { destruct (N.lt_ge_cases 0 e) as [A|A]; [destruct (N.lt_ge_cases e (nexte s)) as [A'|A']; [now split|]|].
    all: assert (F : ~ 0 < e < nexte s) by lia; destruct (I_freshe s H e F) as [F1 _];
      apply (I_bind s H) in B; rewrite F1 in B; destruct B. }
  pose proof (I_ref s H e R) as E. split; [|exact E]. unfold alive. rewrite E. auto.
Qed.
Lemma new_node_Inv : Inv new_node.
Proof.
  constructor.
  - reflexivity.
  - intros c e. split; [discriminate|contradiction].
  - intro e. constructor.
  - intro c. repeat split; discriminate.
  - split; reflexivity.
  - split; reflexivity.
  - intros e H. cbn in H. lia.
  - intros x [H|[H|[H|H]]]; try discriminate; contradiction.
  - constructor.
  - contradiction.
  - constructor.
  - intros e. split; [discriminate|contradiction].
  - constructor.
  - contradiction.
  - now intros [].
  - split; reflexivity.
  - intros e [H|H]; contradiction.
Qed.

(** ** Small steps *)
(** Sublists. *)
Inductive sub {A} : list A -> list A -> Prop :=
| sub_nil : sub [] []
| sub_keep x l l' : sub l l' -> sub (x :: l) (x :: l')
| sub_drop x l l' : sub l l' -> sub l (x :: l').
Lemma sub_refl {A} (l : list A) : sub l l.
Proof. induction l; now constructor. Qed.
Lemma sub_in {A} (l l' : list A) x : sub l l' -> In x l -> In x l'.
Proof. induction 1; cbn; intuition. Qed.
Lemma sub_filter {A} (f : A -> bool) l : sub (filter f l) l.
Proof. induction l as [|a l IH]; cbn; [constructor|]. destruct (f a); now constructor. Qed.
Lemma sub_tail {A} (x : A) l : sub l (x :: l).
Proof. constructor. apply sub_refl. Qed.
Lemma sub_nil_l {A} (l : list A) : sub [] l.
Proof. induction l; now constructor. Qed.
Lemma sub_map {A B} (f : A -> B) l l' : sub l l' -> sub (map f l) (map f l').
Proof. induction 1; cbn; now constructor. Qed.
Lemma sub_nodup {A} (l l' : list A) : sub l l' -> NoDup l' -> NoDup l.
Proof.
  induction 1; intro N; trivial; inversion N; subst; [constructor|]; auto.
  intro I. eapply sub_in in I; eauto.
Qed.
Lemma sub_trans {A} (l1 l2 l3 : list A) : sub l1 l2 -> sub l2 l3 -> sub l1 l3.
Proof.
  intros H1 H2. revert l1 H1. induction H2; intros l1 H1; trivial.
  - inversion H1; subst; [constructor|constructor]; auto.
  - constructor. auto.
Qed.
Lemma sub_app {A} (l1 l2 m1 m2 : list A) : sub l1 m1 -> sub l2 m2 -> sub (l1 ++ l2) (m1 ++ m2).
Proof. induction 1; cbn; intros; [assumption|constructor; auto|constructor; auto]. Qed.

(** Steps that change none of the fields the invariant speaks about. *)
Definition same_core (s s' : node) : Prop :=
  cf s' = cf s /\ nst s' = nst s /\ self s' = self s /\ parent s' = parent s /\ routes s' = routes s /\
  fl_act s' = fl_act s /\ fl_shut s' = fl_shut s /\ sec s' = sec s /\ connecting s' = connecting s /\
  pings s' = pings s /\ pend s' = pend s /\ lpend s' = lpend s /\ gce s' = gce s /\ cs s' = cs s /\
  nextc s' = nextc s /\ es s' = es s /\ nexte s' = nexte s /\ log s' = log s.
(** Log entries without a state change of their own. *)
Definition silent (t : tr) : Prop :=
  match t with
  | TUp | TDown _ | TAdded _ | TRemoved _ | TReset | TSend _ _ _ _ | TWrote _ _ _ | TClose _ => False
  | _ => True
  end.
Definition stats (k : conn) := (k_start k, k_ok k, k_fail k).
Definition purge (s : node) : node :=
  fold_left (fun s e => emit (TRemoved e) s) (map (fun p => e_ref (snd p)) (routes s)) (set_routes [] s).
(** The small steps; [a] says whether endpoints may be added and connections bound. *)
(** Entries that go with a change of a fault counter. *)
Definition uncounted (t : tr) : Prop := match t with TFault _ _ _ | TGood _ => False | _ => True end.
(** Why an endpoint is taken out of the tables: the node is being reset, the endpoint with
    that number has too many faults, or it has no connections. *)
Definition doomed (s : node) : Prop := exists a b, log s = a ++ TBegin :: b /\ ~ In TReset a.
Definition faulted (i : N) (s : node) : Prop :=
  exists y lim l, log s = TFault y i lim :: l /\ lim < d_fault (es s y).
Definition deserted (e : N) (s : node) : Prop :=
  exists k ctrl data l, log s = k ++ TCheck e ctrl data :: l /\ Forall (fun t => quiet t = true) k /\
    (ctrl = None \/ data = []).
Definition grounds (i : N) (ex : option N) (s : node) : Prop :=
  doomed s \/ faulted i s \/ exists e, ex = Some e /\ deserted e s.
Definition forgive (e : N) (s : node) : node := emit (TGood e) (on_e e (set_d_fault 0) s).
Definition blamed (e : N) (s : node) : node :=
  emit (TFault e (e_id (d_ep (es s e))) (x_tol (cf s))) (on_e e (fun d => set_d_fault (d_fault d + 1) d) s).
Inductive micro (a : bool) : node -> node -> Prop :=
| M_misc s s' : same_core s s' -> micro a s s'
| M_nst v s : v <> NCreated -> micro a s (set_nst v s)
| M_act s : nst s <> NCreated /\ (my_id s = 0 \/ x_parent (cf s) = [] \/ parent s <> None) -> micro a s (on_actived s)
| M_shut z s : micro a s (shutdown z s)
| M_emit t s : silent t -> uncounted t -> micro a s (emit t s)
| M_create s : micro a s (fst (conn_create s))
| M_conn c f s : k_bind (f (cs s c)) = k_bind (cs s c) -> conn_ok (f (cs s c)) ->
    stats (f (cs s c)) = stats (cs s c) ->
    (k_kind (cs s c) <> KNone -> k_kind (f (cs s c)) = k_kind (cs s c)) ->
    (In c (pend s ++ lpend s) \/ nextc s <= c -> k_kind (f (cs s c)) = KNone) -> micro a s (on_c c f s)
| M_timers l s : sub l (connecting s) -> micro a s (set_connecting l s)
| M_push c m s : micro a s (fst (push c m s))
| M_written c z n s : micro a s (written c z n s)
| M_creset c s : micro a s (conn_reset c s)
| M_ereset g e s : 0 < e < nexte s -> micro a s (ep_reset None g e s)
| M_addconn e c b s : a = true -> 0 < e < nexte s -> c < nextc s ->
    micro a s (fst (add_connection e c b s))
| M_ep e f s : d_ep (f (es s e)) = d_ep (es s e) -> d_ctrl (f (es s e)) = d_ctrl (es s e) ->
    d_data (f (es s e)) = d_data (es s e) -> d_timer (f (es s e)) = d_timer (es s e) ->
    d_fault (f (es s e)) <= d_fault (es s e) -> micro a s (on_e e f s)
| M_epcreate i subs p h s : micro a s (fst (ep_create i subs p h s))
| M_addep x s : a = true -> nst s <> NCreated -> alive s x -> ~ In (TAdded (e_ref x)) (log s) ->
    e_id x <> 0 -> micro a s (fst (add_endpoint x s))
| M_rmep i ex s : grounds i ex s -> micro a s (fst (remove_endpoint i ex s))
| M_rmparent p s : parent s = Some p -> (exists l, log s = TAsked (e_id p) :: l) -> micro a s (emit (TRemoved (e_ref p)) (set_parent None s))
| M_rmchild i ex t e s : remove_child (routes s) i ex = (true, t) -> child_at (routes s) i = Some e ->
    (exists l, log s = TAsked i :: l) -> micro a s (emit (TRemoved (e_ref e)) (set_routes t s))
| M_purge s : doomed s -> micro a s (purge s)
| M_gce l s : (forall x, In x l -> alive s x) -> micro a s (set_gce l s)
| M_pend l s : sub l (pend s) -> micro a s (set_pend l s)
| M_lpend l s : sub l (lpend s) -> micro a s (set_lpend l s)
| M_pendadd c s : c < nextc s -> k_kind (cs s c) = KNone -> ~ In c (pend s ++ lpend s) ->
    micro a s (set_pend (pend s ++ [c]) s)
| M_lpendadd c s : c < nextc s -> k_kind (cs s c) = KNone -> ~ In c (pend s ++ lpend s) ->
    micro a s (set_lpend (lpend s ++ [c]) s)
| M_unping e s : micro a s (clear_ping e s)
| M_ping x s : alive s x -> micro a s (add_ping x s)
| M_sec v s : sec s <= v -> micro a s (set_sec v s)
| M_fault e s : micro a s (blamed e s)
| M_good e s : micro a s (forgive e s).

(** ** The invariant is kept *)
Lemma conns_stripped d : conns (stripped d) = []. Proof. reflexivity. Qed.
Lemma conn_ok_resetted k : conn_ok k -> conn_ok (resetted k).
Proof.
  intros (A & B & C & D). unfold resetted, closed, conn_ok. destruct (k_st k) eqn:E; cbn;
    rewrite ?E; try (repeat split; congruence). repeat split; try congruence; now apply D.
Qed.
Lemma bind_resetted k : k_bind (resetted k) = None. Proof. reflexivity. Qed.
Lemma kind_resetted k : k_kind k = KNone -> k_kind (resetted k) = KNone.
Proof. unfold resetted, closed. destruct (k_st k); cbn; auto. Qed.

Lemma set_d_data_conns d l : conns (set_d_data l d) = match d_ctrl d with Some c => c :: l | None => l end.
Proof. reflexivity. Qed.
Lemma conns_data d c : In c (d_data d) -> In c (conns d).
Proof. unfold conns. destruct (d_ctrl d); [now right|trivial]. Qed.
Lemma nodup_filter {A} (f : A -> bool) l : NoDup l -> NoDup (filter f l).
Proof. intro H. eapply sub_nodup; [apply sub_filter|exact H]. Qed.
Lemma in_ping_filter e x l :
  In x (map snd (filter (fun p : N * N => negb (snd p =? e)) l)) <-> In x (map snd l) /\ x <> e.
Proof.
  rewrite !in_map_iff. split.
  - intros (p & <- & H). apply filter_In in H as [I F]. split; [eauto|]. intro X. subst e.
    now rewrite N.eqb_refl in F.
  - intros [(p & <- & I) NE]. exists p. split; [reflexivity|]. apply filter_In. split; [exact I|].
    apply N.eqb_neq in NE. now rewrite NE.
Qed.
Lemma nodup_ping_filter e l :
  NoDup (map snd l) -> NoDup (map snd (filter (fun p : N * N => negb (snd p =? e)) l)).
Proof. intro H. eapply sub_nodup; [apply sub_map, sub_filter|exact H]. Qed.

(** Parts of the invariant under a reset of a connection or an endpoint: the heaps
    change as described by the closed forms. *)
Lemma heap_strip s (cs' : N -> conn) (es' : N -> epd) e :
  Inv s ->
  (forall x, cs' x = if memb x (conns (es s e)) then resetted (cs s x) else cs s x) ->
  (forall x, es' x = if x =? e then stripped (es s e) else es s x) ->
  (forall c y, k_bind (cs' c) = Some y <-> In c (conns (es' y))).
Proof.
  intros H EC EE c y. rewrite EC, EE. destruct (memb c (conns (es s e))) eqn:M.
  - rewrite bind_resetted. apply memb_in in M. destruct (N.eqb_spec y e) as [->|NE].
    + split; [discriminate|contradiction].
    + split; [discriminate|]. intro I. apply (I_bind s H) in M, I. congruence.
  - destruct (N.eqb_spec y e) as [->|NE]; [|apply (I_bind s H)].
    split; [|contradiction]. intro B. apply (I_bind s H) in B. apply memb_in in B. congruence.
Qed.

Lemma Inv_misc s s' : same_core s s' -> Inv s -> Inv s'.
Proof.
  intros (E1 & E2 & E3 & E4 & E5 & E6 & E7 & E8 & E9 & E10 & E11 & E12 & E13 & E14 & E15 & E16 & E17 & E18) H.
  assert (T : forall x, tabled s' x -> tabled s x).
  { unfold tabled. rewrite E3, E4, E5, E13. auto. }
  assert (ID : my_id s' = my_id s) by (unfold my_id; now rewrite E3).
  destruct H. constructor; rewrite ?E2, ?E4, ?E5, ?E9, ?E10, ?E11, ?E12, ?E14, ?E15, ?E16, ?E17, ?E18, ?ID; trivial.
  intros x X. apply T, I_tab0 in X. unfold alive in *. now rewrite E16, E17.
Qed.
Ltac same := repeat split; reflexivity.

(** A change of node state, log, timers only. *)
Lemma Inv_calm s s' : Inv s ->
  nextc s' = nextc s -> nexte s' = nexte s -> es s' = es s -> cs s' = cs s ->
  self s' = self s -> parent s' = parent s -> routes s' = routes s -> gce s' = gce s ->
  pend s' = pend s -> lpend s' = lpend s -> pings s' = pings s -> sub (connecting s') (connecting s) ->
  (nst s' = NCreated -> nst s = NCreated) ->
  (forall e, In (TAdded e) (log s') \/ In (TRemoved e) (log s') -> In (TAdded e) (log s) \/ In (TRemoved e) (log s)) ->
  Inv s'.
Proof.
  intros H E1 E2 E3 E4 E5 E6 E7 E8 E9 E10 E11 S N L.
  assert (ID : my_id s' = my_id s) by (unfold my_id; now rewrite E5).
  destruct H; constructor; rewrite ?E1, ?E2, ?E3, ?E4, ?E6, ?E7, ?E9, ?E10, ?E11, ?ID; trivial; auto.
  - intros x X. unfold alive. rewrite E2, E3. apply I_tab0. unfold tabled in *. now rewrite E5, E6, E7, E8 in X.
  - eapply sub_nodup; [apply sub_map, S|trivial].
  - intros p I. apply I_conningc0. eapply sub_in; eauto.
Qed.
Lemma calm_log s s' e : calm s s' ->
  In (TAdded e) (log s') \/ In (TRemoved e) (log s') -> In (TAdded e) (log s) \/ In (TRemoved e) (log s).
Proof.
  intros [(l & E & F) _]. rewrite E, !in_app_iff. rewrite Forall_forall in F.
  intros [[I|I]|[I|I]]; auto; apply F in I; discriminate.
Qed.
Lemma calm_created s s' : calm s s' -> nst s' = NCreated -> nst s = NCreated.
Proof. intros [_ [E|[E1 E2]]]; congruence. Qed.
Lemma calm_created' s s' : calm s s' -> nst s' <> NCreated <-> nst s <> NCreated.
Proof. intros [_ [E|[E1 E2]]]; [now rewrite E|split; congruence]. Qed.

(** One connection changed without touching its binding. *)
Lemma Inv_conn s s' c k : Inv s ->
  (forall x, cs s' x = if x =? c then k else cs s x) ->
  k_bind k = k_bind (cs s c) -> conn_ok k -> (In c (pend s ++ lpend s) \/ nextc s <= c -> k_kind k = KNone) ->
  nextc s' = nextc s -> nexte s' = nexte s -> es s' = es s ->
  self s' = self s -> parent s' = parent s -> routes s' = routes s -> gce s' = gce s ->
  pend s' = pend s -> lpend s' = lpend s -> pings s' = pings s -> connecting s' = connecting s ->
  nst s' = nst s ->
  (forall e, In (TAdded e) (log s') \/ In (TRemoved e) (log s') -> In (TAdded e) (log s) \/ In (TRemoved e) (log s)) ->
  Inv s'.
Proof.
  intros H EC B OK PK E1 E2 E3 E5 E6 E7 E8 E9 E10 E11 E12 N L.
  assert (ID : my_id s' = my_id s) by (unfold my_id; now rewrite E5).
  assert (BB : forall x, k_bind (cs s' x) = k_bind (cs s x)).
  { intro x. rewrite EC. destruct (N.eqb_spec x c) as [->|]; trivial. }
  destruct H; constructor; rewrite ?E1, ?E2, ?E3, ?E6, ?E7, ?E9, ?E10, ?E11, ?E12, ?ID, ?N; trivial; auto.
  - intros x e. rewrite BB. apply I_bind0.
  - intros x. rewrite EC. destruct (N.eqb_spec x c) as [->|]; trivial.
  - intros x L'. rewrite BB. destruct (I_freshc0 x L') as [F1 F2]. split; [exact F1|].
    rewrite EC. destruct (N.eqb_spec x c) as [->|]; auto.
  - intros x X. unfold alive. rewrite E2, E3. apply I_tab0. unfold tabled in *. now rewrite E5, E6, E7, E8 in X.
  - intros x I. destruct (I_pendc0 x I) as [P1 P2]. split; [exact P1|].
    rewrite EC. destruct (N.eqb_spec x c) as [->|]; auto.
Qed.
