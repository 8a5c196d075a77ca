(** What a registration request does: nothing is sent on the connection it came on but
    one answer, and the endpoint table changes only by the endpoint it creates. *)
From Verif Require Import Base Subnet SubnetProof Route RouteProof Address NodeTypes NodeConn NodeCore NodeMsg Node
  NodeFrame NodeCtx NodeReset NodeInv NodeKeep NodeSteps NodeReach NodeSpec NodeLog NodeTrace.
Local Open Scope N_scope.
Ltac Zify.zify_post_hook ::= idtac.

Section Far.
Variable c : N.
Definition hush (t : tr) : Prop :=
  match t with TSend c' _ _ _ => c' <> c | TAdded _ | TRemoved _ => False | _ => True end.
Definition view (k : conn) := (k_bind k, k_st k, k_kind k, k_fd k).
Record apart (s s' : node) : Prop := {
  far_log : adds hush s s';
  far_r : routes s' = routes s; far_p : parent s' = parent s; far_s : self s' = self s; far_cf : cf s' = cf s;
  far_e : forall e, e < nexte s -> d_ep (es s' e) = d_ep (es s e);
  far_nc : nextc s <= nextc s'; far_ne : nexte s <= nexte s' }.
Lemma ap_refl s : apart s s. Proof. constructor; trivial; try lia; apply adds_refl. Qed.
Lemma ap_trans s1 s2 s3 : apart s1 s2 -> apart s2 s3 -> apart s1 s3.
Proof.
  intros [A1 A2 A3 A4 A5 A7 A8 A9] [B1 B2 B3 B4 B5 B7 B8 B9]. constructor; try congruence; try lia; [eapply adds_trans; eauto|].
  intros e L. rewrite B7 by lia. now apply A7.
Qed.
Definition far (s s' : node) : Prop := apart s s' /\ view (cs s' c) = view (cs s c).
Lemma far_refl s : far s s. Proof. split; [apply ap_refl|reflexivity]. Qed.
Lemma far_trans s1 s2 s3 : far s1 s2 -> far s2 s3 -> far s1 s3.
Proof. intros [A V] [B W]. split; [eapply ap_trans; eauto|congruence]. Qed.
Lemma ap_onc x f s : apart s (on_c x f s).
Proof. constructor; try reflexivity; try (cbn; lia). now apply adds_same. Qed.
Lemma ap_soft s s' : soft s s' -> routes s' = routes s -> parent s' = parent s -> self s' = self s -> cf s' = cf s ->
  (forall e, e < nexte s -> d_ep (es s' e) = d_ep (es s e)) -> nextc s' = nextc s -> nexte s' = nexte s -> apart s s'.
Proof.
  intros [(l & L & F) _] ? ? ? ? ? ? ?. constructor; trivial; try lia. exists l. split; [exact L|].
  eapply Forall_impl; [|exact F]. intros []; cbn; trivial; discriminate.
Qed.
Lemma far_onc x f s : x <> c -> far s (on_c x f s).
Proof.
  intro N. split; [apply ap_onc|]. rewrite cs_on_c. apply N.eqb_neq in N. rewrite N.eqb_sym in N. now rewrite N.
Qed.
Lemma far_onc_same f s : (forall k, view (f k) = view k) -> far s (on_c c f s).
Proof. intro V. split; [apply ap_onc|]. rewrite cs_on_c, N.eqb_refl. apply V. Qed.
Lemma far_one e f s : (forall d, d_ep (f d) = d_ep d) -> far s (on_e e f s).
Proof.
  intro V. split; [|reflexivity]. constructor; try reflexivity; try (cbn; lia); [now apply adds_same|]. intros x _. rewrite es_on_e. destruct (N.eqb_spec x e) as [->|]; trivial.
Qed.
Lemma far_emit t s : hush t -> far s (emit t s).
Proof. intro H. split; [|reflexivity]. constructor; try reflexivity; try (cbn; lia). now apply adds_emit. Qed.
Lemma far_calm s s' : log s' = log s -> routes s' = routes s -> parent s' = parent s -> self s' = self s -> cf s' = cf s -> cs s' = cs s -> es s' = es s ->
  nextc s' = nextc s -> nexte s' = nexte s -> far s s'.
Proof. intros. split; [|congruence]. constructor; trivial; try lia; [now apply adds_same|congruence]. Qed.
Lemma far_rm_timer x s : far s (rm_timer x s).
Proof.
  split; [|rewrite (keeps (f := cs)); reflexivity]. apply ap_soft; [apply soft_rm_timer|try fr1..]. intros. rewrite (keeps (f := es)). reflexivity.
Qed.
Lemma ap_status x v s : apart s (set_status x v s).
Proof. apply ap_soft; [apply soft_set_status|try fr1..]; intros; rewrite (keeps (f := es)); reflexivity. Qed.
Lemma far_status x v s : x <> c -> far s (set_status x v s).
Proof.
  intro N. split; [apply ap_status|]. rewrite cs_set_status. apply N.eqb_neq in N. rewrite N.eqb_sym in N. now rewrite N.
Qed.
Lemma far_orc s : far s (fst (take_orc s)). Proof. unfold take_orc. destruct (orc s); [apply far_refl|]. now apply far_calm. Qed.
Lemma far_create s : c < nextc s -> far s (fst (conn_create s)).
Proof.
  intro L. assert (NC : nextc (fst (conn_create s)) = nextc s + 1) by (unfold conn_create; cbn [fst]; now rewrite (keeps (f := nextc) (g := add_timer _))).
  split.
  - constructor; try fr1.
    + apply adds_same. fr1.
    + intros e _. assert (E : es (fst (conn_create s)) = es s).
      { unfold conn_create. cbn [fst]. now rewrite (keeps (f := es) (g := add_timer _)). } now rewrite E.
    + lia.
    + assert (E : nexte (fst (conn_create s)) = nexte s) by fr1. lia.
  - unfold conn_create. cbn [fst]. rewrite (keeps (f := cs) (g := add_timer _)). cbn [cs set_nextc set_cs]. unfold upd.
    destruct (N.eqb_spec c (nextc s)); [lia|reflexivity].
Qed.
Lemma far_new x s : x <> c -> k_fd (cs s x) = false -> far s (on_new_connection x s).
Proof.
  intros N F. unfold on_new_connection. cbv zeta. change (cs (emit (TNew x) s) x) with (cs s x). rewrite F. cbn [andb]. now apply far_emit.
Qed.
Lemma far_conn_connect x a s : x <> c -> k_fd (cs s x) = false -> far s (fst (conn_connect x a s)).
Proof.
  intros N F. unfold conn_connect. destruct (k_st (cs s x)); try apply far_refl.
  destruct (parse_address a) as [|p| |]; cbn [fst]; [now apply far_onc| |now apply far_emit..]. cbv zeta.
  set (s1 := on_c x (set_k_addr a) s). assert (A : far s s1) by now apply far_onc.
  assert (F1 : k_fd (cs s1 x) = false) by (unfold s1; rewrite cs_on_c, N.eqb_refl; exact F). clearbody s1.
  destruct (_ || _).
  - pose proof (far_orc s1) as B. assert (F2 : cs (fst (take_orc s1)) = cs s1) by (unfold take_orc; now destruct (orc s1)).
    destruct (take_orc s1) as [s2 r]. cbn [fst] in B, F2. rewrite <- F2 in F1. clear F2. pose proof (far_trans _ _ _ A B) as C. clear A B.
    destruct (_ <? _)%Z; [exact C|]. cbn [fst]. set (g := fun k => _). set (s3 := on_c x g s2).
    assert (F3 : k_fd (cs s3 x) = false) by (unfold s3; rewrite cs_on_c, N.eqb_refl; exact F1).
    pose proof (far_trans _ _ _ C (far_onc x g s2 N)) as D. fold s3 in D. clearbody s3. set (v := match k_bind _ with None => _ | Some _ => _ end).
    eapply far_trans; [exact D|]. eapply far_trans; [apply (far_status x v s3 N)|]. apply far_new; trivial. rewrite cs_set_status, N.eqb_refl. exact F3.
  - set (s2 := if _ && _ then _ else _). assert (B : far s s2).
    { unfold s2. destruct (prefix_nocase s_ipv4 _ && _); [eapply far_trans; [exact A|now apply far_onc]|].
      destruct (prefix_nocase s_ipv6 _ && _); [eapply far_trans; [exact A|now apply far_onc]|].
      destruct (prefix_nocase s_unix _); [eapply far_trans; [exact A|now apply far_onc]|exact A]. }
    clearbody s2. pose proof (far_trans _ _ _ B (far_status x Connecting s2 N)) as C. set (s3 := set_status x Connecting s2) in *. clearbody s3.
    pose proof (far_orc s3) as D. destruct (take_orc s3) as [s4 r]. cbn [fst] in *. pose proof (far_trans _ _ _ C D) as E.
    destruct (_ <? _)%Z; [exact E|]. eapply far_trans; [exact E|]. now apply far_calm.
Qed.
Lemma far_addconn e x b s : x <> c -> far s (fst (add_connection e x b s)).
Proof.
  intro N. unfold add_connection. destruct (k_bind (cs s x)); [apply far_refl|]. cbv zeta. cbn [fst].
  set (s1 := if _ || _ then _ else _). assert (A : far s s1) by (unfold s1; destruct (_ || _); now apply far_one).
  clearbody s1. set (s2 := on_c x _ s1). pose proof (far_trans _ _ _ A (far_onc x (set_k_bind (Some e)) s1 N)) as B. fold s2 in B. clearbody s2.
  destruct (k_st (cs s2 x)); trivial. eapply far_trans; [exact B|now apply far_status].
Qed.
Lemma far_listen e a s : far s (add_listen e a s).
Proof. unfold add_listen. destruct a; [apply far_refl|]. apply far_one. intro d. now destruct (is_simplex _). Qed.
Lemma far_connect_ep a e s : c < nextc s -> far s (fst (connect_ep a e s)).
Proof.
  intro L. unfold connect_ep. destruct (nst s); [apply far_refl|..].
  all: destruct (existsb _ _); [apply far_refl|]; pose proof (far_create s L) as A;
    assert (X : k_fd (cs (fst (conn_create s)) (nextc s)) = false) by
      (unfold conn_create; cbn [fst]; rewrite (keeps (f := cs) (g := add_timer _)); cbn [cs set_nextc set_cs]; unfold upd; now rewrite N.eqb_refl);
    assert (Y : snd (conn_create s) = nextc s) by reflexivity;
    destruct (conn_create s) as [s1 x]; cbn [fst snd] in *; subst x; assert (NE : nextc s <> c) by lia;
    pose proof (far_conn_connect (nextc s) a s1 NE X) as B; destruct (conn_connect (nextc s) a s1) as [s2 r]; cbn [fst] in B;
    pose proof (far_trans _ _ _ A B) as C; destruct (_ <? _)%Z; [exact C|];
    pose proof (far_addconn e (nextc s) (prefix_nocase p_mem a || prefix_nocase p_shm a) s2 NE) as D;
    destruct (add_connection _ _ _ s2) as [s3 ok]; cbn [fst] in *; exact (far_trans _ _ _ C D).
Qed.
Lemma far_open e can l : forall has s, c < nextc s -> far s (fst (open_channels e can l has s)).
Proof.
  induction l as [|a l IH]; intros has s L; cbn [open_channels]; [apply far_refl|]. destruct a as [|x a]; [now apply IH|].
  set (b := x :: a). clearbody b. cbv zeta. set (w := can && _). clearbody w.
  destruct (w && _); [now apply IH|]. destruct (_ && _); [now apply IH|]. destruct (_ && _); [now apply IH|].
  assert (G : forall s1, far s s1 -> far s (fst (open_channels e can l true (add_listen (e_ref e) b s1)))).
  { intros s1 A. eapply far_trans; [exact A|]. eapply far_trans; [apply far_listen|]. apply IH. pose proof (far_nc _ _ (proj1 A)).
    pose proof (far_nc _ _ (proj1 (far_listen (e_ref e) b s1))). lia. }
  destruct (_ && _); [|now apply G, far_refl]. pose proof (far_connect_ep b (e_ref e) s L) as A. destruct (connect_ep b (e_ref e) s) as [s1 res]. cbn [fst] in A.
  destruct (_ <? _)%Z; [|now apply G]. eapply far_trans; [exact A|]. apply IH. pose proof (far_nc _ _ (proj1 A)). lia.
Qed.
Lemma far_gce e s : far s (gc_ep e s). Proof. unfold gc_ep. destruct (_ || _); [apply far_refl|]. now apply far_calm. Qed.
Lemma far_gen l s : far s (fst (gen_keys l s)).
Proof.
  revert s. induction l as [|t l IH]; intro s; cbn [gen_keys]; [apply far_refl|].
  assert (A : far s (fst (take_salt s))) by (unfold take_salt; destruct (salts s); [apply far_refl|now apply far_calm]).
  destruct (take_salt s) as [s1 v]. cbn [fst] in A. destruct (x_mac _ t v) as [a b]. specialize (IH s1). destruct (gen_keys l s1) as [s2 ks]. cbn [fst] in *.
  exact (far_trans _ _ _ A IH).
Qed.
Lemma far_addping e s : far s (add_ping e s).
Proof.
  assert (A : far s (clear_ping (e_ref e) s)).
  { unfold clear_ping. destruct (d_timer _); [|apply far_refl]. apply (far_trans s (set_pings (filter (fun p => negb (snd p =? e_ref e)) (pings s)) s)); [now apply far_calm|now apply far_one]. }
  unfold add_ping. eapply far_trans; [exact A|]. set (s1 := clear_ping _ s). clearbody s1. unfold insert_ping. destruct (_ || _); [apply far_refl|].
  apply (far_trans s1 (set_pings (pings s1 ++ [(sec s1 + x_ping (cf s1), e_ref e)]) s1)); [now apply far_calm|now apply far_one].
Qed.
Lemma far_ep_create i subs p h s : far s (fst (ep_create i subs p h s)).
Proof.
  unfold ep_create. cbn [fst]. set (d := {| d_ep := _ |}). set (s1 := set_nexte _ _).
  assert (A : far s s1).
  { split; [|reflexivity]. constructor; try reflexivity; try (cbn; lia); [now apply adds_same|]. intros e L. cbn. unfold upd. destruct (N.eqb_spec e (nexte s)); [lia|reflexivity]. }
  eapply far_trans; [exact A|]. clearbody s1. unfold insert_ping. destruct (_ || _); [apply far_refl|].
  match goal with |- far _ (on_e ?e ?g (set_pings ?v _)) => apply (far_trans s1 (set_pings v s1)); [now apply far_calm|now apply far_one] end.
Qed.
Lemma far_shut z s : far s (shutdown z s).
Proof.
  unfold shutdown. destruct (fl_shut s); [apply far_refl|]. set (s1 := set_fl_shut true s). assert (A : far s s1) by now apply far_calm.
  clearbody s1. destruct (fl_act s1); trivial. eapply far_trans; [exact A|]. now apply far_emit.
Qed.
End Far.

(** ** The connection itself *)
Definition shut_view : option N * cst * ckind * bool := (None, Disconnected, KNone, false).
Lemma ap_emit c t s : hush c t -> apart c s (emit t s). Proof. intro H. apply (far_emit c t s H). Qed.
Lemma adds_hush_soft c s s' : soft s s' -> adds (hush c) s s'.
Proof.
  intros [(l & L & F) _]. exists l. split; [exact L|]. eapply Forall_impl; [|exact F]. intros []; cbn; trivial; discriminate.
Qed.
Lemma es_conn_reset_unbound c s : k_bind (cs s c) = None -> es (conn_reset c s) = es s.
Proof.
  intro B. unfold conn_reset. cbv zeta. rewrite cs_conn_close, N.eqb_refl, bind_closed, B. unfold conn_fin.
  rewrite es_on_c, (keeps (f := es) (g := gc_conn _)). apply es_conn_close.
Qed.
Lemma conn_reset_shut c s : k_bind (cs s c) = None -> k_st (cs s c) <> Disconnecting -> (k_st (cs s c) = Disconnected -> k_kind (cs s c) = KNone) ->
  apart c s (conn_reset c s) /\ view (cs (conn_reset c s) c) = shut_view.
Proof.
  intros B D K. split.
  - apply ap_soft; [apply soft_conn_reset|try fr1..]. intros. now rewrite (es_conn_reset_unbound c s B).
  - unfold conn_reset. cbv zeta. rewrite cs_conn_close, N.eqb_refl, bind_closed, B, cs_conn_fin, N.eqb_refl, cs_conn_close, N.eqb_refl.
    unfold view, finished, closed. destruct (cs s c) as [[] ? ? kd ? ? ? ? ? ? ? ? ? ? ?]; cbn in *; subst; trivial; try congruence. now rewrite K.
Qed.
Lemma far_idle_ep c g e s : conns (es s e) = [] -> far c s (ep_reset None g e s).
Proof.
  intro E. split.
  - apply ap_soft; [apply soft_ep_reset|try fr1..]. intros x _. rewrite es_ep_reset. destruct (N.eqb_spec x e) as [->|]; reflexivity.
  - rewrite cs_ep_reset. unfold conns in E. destruct (d_ctrl (es s e)); [discriminate|]. rewrite E. reflexivity.
Qed.
Lemma ap_addconn c e b s : k_bind (cs s c) = None -> k_st (cs s c) = Handshaking ->
  apart c s (fst (add_connection e c b s)) /\ snd (add_connection e c b s) = true /\
  view (cs (fst (add_connection e c b s)) c) = (Some e, Connected, k_kind (cs s c), k_fd (cs s c)).
Proof.
  intros B H. unfold add_connection. rewrite B. cbv zeta. cbn [fst snd].
  set (s1 := if _ || _ then _ else _). assert (A : far c s s1) by (unfold s1; destruct (_ || _); now apply far_one).
  assert (C : cs s1 = cs s) by (unfold s1; now destruct (_ || _)). clearbody s1. set (s2 := on_c c _ s1).
  assert (C2 : cs s2 c = set_k_bind (Some e) (cs s c)) by (unfold s2; now rewrite cs_on_c, N.eqb_refl, C).
  pose proof (ap_trans c _ _ _ (proj1 A) (ap_onc c c (set_k_bind (Some e)) s1)) as D. fold s2 in D. clearbody s2.
  rewrite C2. cbn [k_st set_k_bind]. rewrite H. split; [|split; [reflexivity|]].
  - eapply ap_trans; [exact D|apply ap_status].
  - rewrite cs_set_status, N.eqb_refl, C2. reflexivity.
Qed.
(** What [send_on] does on the connection itself: one entry or none. *)
Lemma send_on_view c m s : k_st (cs s c) = Handshaking \/ k_st (cs s c) = Connected -> k_kind (cs s c) = KSock ->
  let s' := fst (send_on c m s) in let z := snd (send_on c m s) in
  (log s' = TSend c m (x_size (cf s) m) z :: log s \/ (log s' = log s /\ x_msg (cf s) + 1024 < x_size (cf s) m /\ z = E_INVALID_SIZE)) /\
  routes s' = routes s /\ parent s' = parent s /\ self s' = self s /\ cf s' = cf s /\ es s' = es s /\ nextc s' = nextc s /\ nexte s' = nexte s /\
  view (cs s' c) = view (cs s c).
Proof.
  intros K SK. cbv zeta. unfold send_on. destruct (N.ltb_spec (x_msg (cf s) + 1024) (x_size (cf s) m)) as [L|L].
  - cbn [fst snd]. split; [right; now repeat split|now repeat split].
  - unfold push. cbv zeta. set (s1 := on_c c _ s). set (fail := on_c c _).
    assert (E : k_st (cs s1 c) = k_st (cs s c) /\ k_kind (cs s1 c) = k_kind (cs s c)) by (unfold s1; rewrite cs_on_c, N.eqb_refl; now split).
    destruct E as [E1 E2]. rewrite E1, E2, SK.
    assert (V : view (cs s1 c) = view (cs s c)) by (unfold s1; rewrite cs_on_c, N.eqb_refl; reflexivity).
    assert (G : let p := (let (s, r) := take_orc s1 in let s := emit (TSend c m (x_size (cf s1) m) r) s in ((if (r <? 0)%Z then fail s else s), r)) in
      log (fst p) = TSend c m (x_size (cf s) m) (snd p) :: log s /\ routes (fst p) = routes s /\ parent (fst p) = parent s /\ self (fst p) = self s /\
      cf (fst p) = cf s /\ es (fst p) = es s /\ nextc (fst p) = nextc s /\ nexte (fst p) = nexte s /\ view (cs (fst p) c) = view (cs s c)).
    { unfold take_orc. change (orc s1) with (orc s). destruct (orc s) as [|z q]; cbv zeta.
      all: cbn [fst snd]; match goal with |- context [(?z <? 0)%Z] => destruct (z <? 0)%Z end; repeat (split; [reflexivity|]); trivial.
      all: unfold fail; rewrite cs_on_c, N.eqb_refl; exact V. }
    destruct K as [K|K]; rewrite K; destruct G as (G1 & G2); (split; [left; exact G1|exact G2]).
Qed.

(** ** The decision *)
Lemma in_coll_set c k e : In e (map snd (coll_set c k e)).
Proof.
  induction c as [|[r x] c IH]; cbn [coll_set map snd]; [now left|]. destruct (range_ltb r k); [now right|]. destruct (range_ltb k r); now left.
Qed.
Lemma in_coll_sets e l : forall c, l <> [] \/ In e (map snd c) -> In e (map snd (fold_left (fun c r => coll_set c r e) l c)).
Proof.
  induction l as [|r l IH]; intros c [H|H]; cbn [fold_left]; trivial; [congruence| |]; apply IH; right; apply in_coll_set.
Qed.
Lemma subnets_some id cs l : id <> 0 -> endpoint_subnets id cs = Some l -> l <> [].
Proof.
  intros Z E. destruct (endpoint_subnets_spec id cs l Z E) as [_ H]. intro N. subst l. assert (X : rs_in [] id) by (apply H; now left).
  destruct X as (x & [] & _).
Qed.

(** The request of a peer on a connection that waits for registration. *)
Record waits (c : N) (s : node) : Prop := {
  w_old : c < nextc s; w_hand : k_st (cs s c) = Handshaking; w_free : k_bind (cs s c) = None;
  w_sock : k_kind (cs s c) = KSock; w_fd : k_fd (cs s c) = true }.
Definition in_view (e : N) : option N * cst * ckind * bool := (Some e, Connected, KSock, true).
Definition other_process (s : node) (r : reg) (e : ep) : Prop :=
  my_id s <> 0 /\ (d_pid (es s (e_ref e)) <> r_pid r \/ d_host (es s (e_ref e)) <> r_host r).
Inductive decided (c : N) (r : reg) (s s' : node) : Z -> Prop :=
| d_conflict e : get_endpoint s (r_id r) = Some e -> other_process s r e -> far c s s' -> decided c r s s' E_ID_CONFLICT
| d_refused z : (z < 0)%Z -> z <> E_ID_CONFLICT -> z <> E_VERSION -> z <> E_ACCESS_DENY ->
    get_endpoint s (r_id r) = None -> far c s s' -> decided c r s s' z
| d_shut z : (z < 0)%Z -> z <> E_ID_CONFLICT -> z <> E_VERSION -> z <> E_ACCESS_DENY ->
    get_endpoint s (r_id r) = None -> apart c s s' -> view (cs s' c) = shut_view -> decided c r s s' z
| d_known e : get_endpoint s (r_id r) = Some e -> ~ other_process s r e -> apart c s s' -> view (cs s' c) = in_view (e_ref e) -> decided c r s s' 0%Z
| d_new e s1 s2 : get_endpoint s (r_id r) = None -> e_id e = r_id r -> e_ref e = nexte s -> d_ep (es s' (e_ref e)) = e ->
    adds (hush c) s s1 -> log s2 = TAdded (e_ref e) :: log s1 -> adds (hush c) s2 s' ->
    parent s' = Some e /\ routes s' = routes s \/ parent s' = parent s /\ In e (map snd (routes s')) ->
    cf s' = cf s -> self s' = self s -> view (cs s' c) = in_view (e_ref e) -> e_ref e < nexte s' -> decided c r s s' 0%Z.

Lemma bytes_eqb_true x : forall y, bytes_eqb x y = true <-> x = y.
Proof.
  induction x as [|a x IH]; intros [|b y]; cbn [bytes_eqb]; try (split; [discriminate|discriminate]); [tauto|].
  rewrite Bool.andb_true_iff, IH, N.eqb_eq. split; [intros [-> ->]; reflexivity|intros [= -> ->]; now split].
Qed.
Lemma waits_far c s s' : waits c s -> far c s s' -> waits c s'.
Proof.
  intros [A B C D E] [F V]. pose proof (far_nc c _ _ F). unfold view in V. injection V as V1 V2 V3 V4. constructor; try congruence. lia.
Qed.
Lemma waits_view c s : waits c s -> view (cs s c) = (None, Handshaking, KSock, true).
Proof. intros []. unfold view. congruence. Qed.

(** [add_endpoint] of an endpoint just created. *)
Lemma added_endpoint c e s : e_subs e <> [] ->
  let p := add_endpoint e s in
  ((snd p < 0)%Z /\ fst p = s /\ snd p <> E_ID_CONFLICT /\ snd p <> E_VERSION /\ snd p <> E_ACCESS_DENY) \/
  (snd p = 0%Z /\ exists s1 s2, adds (hush c) s s1 /\ log s2 = TAdded (e_ref e) :: log s1 /\ adds (hush c) s2 (fst p) /\
    (parent (fst p) = Some e /\ routes (fst p) = routes s \/ parent (fst p) = parent s /\ In e (map snd (routes (fst p)))) /\
    cf (fst p) = cf s /\ self (fst p) = self s /\ view (cs (fst p) c) = view (cs s c) /\ nextc (fst p) = nextc s /\ nexte (fst p) = nexte s /\
    (forall x, x < nexte s -> d_ep (es (fst p) x) = d_ep (es s x))).
Proof.
  intro NE. cbv zeta. unfold add_endpoint. destruct (fl_reset s); [left; cbn [fst snd]; repeat split; discriminate|].
  destruct (negb _ && subnets_contain _ _).
  - destruct (parent s) as [p|] eqn:P; [left; cbn [fst snd]; repeat split; discriminate|]. right. cbv zeta. cbn [fst snd].
    split; [reflexivity|]. pose proof (far_addping c e (set_parent (Some e) s)) as A.
    assert (R : nextc (add_ping e (set_parent (Some e) s)) = nextc s /\ nexte (add_ping e (set_parent (Some e) s)) = nexte s /\
      parent (add_ping e (set_parent (Some e) s)) = Some e) by (repeat split; fr1). destruct R as (R1 & R2 & R3).
    set (s1 := add_ping e (set_parent (Some e) s)) in *. clearbody s1. destruct A as [[A1 A2 A3 A4 A5 A6 A7 A8] V]. cbn in A2, A4, A5, A6, V.
    set (s2 := if (_ || _) && _ then on_actived s1 else s1).
    assert (B : adds (hush c) s1 s2 /\ routes s2 = routes s1 /\ parent s2 = parent s1 /\ cf s2 = cf s1 /\ self s2 = self s1 /\ cs s2 = cs s1 /\ es s2 = es s1 /\
      nextc s2 = nextc s1 /\ nexte s2 = nexte s1).
    { unfold s2. destruct (_ && _); [|repeat (split; [reflexivity || apply adds_refl|]); reflexivity]. unfold on_actived. cbv zeta. change (fl_act (set_nst NRunning s1)) with (fl_act s1). destruct (fl_act s1).
      - split; [now apply adds_same|]. now repeat split.
      - split; [|now repeat split]. exists [TUp]. split; [reflexivity|]. constructor; [exact Logic.I|constructor]. }
    clearbody s2. destruct B as (B1 & B2 & B3 & B4 & B5 & B6 & B7 & B8 & B9).
    exists s2, (emit (TAdded (e_ref e)) s2). split; [|split; [reflexivity|split; [apply adds_refl|]]].
    { eapply adds_trans; [|exact B1]. destruct A1 as (l & L & F). exists l. split; [exact L|exact F]. }
    cbn [emit parent routes cf self cs nextc nexte es set_log]. repeat split; try congruence; [left; split; congruence|].
    intros x L. rewrite B7. now apply A6.
  - destruct (negb _ && is_child _ _ && _); [left; cbn [fst snd]; repeat split; discriminate|].
    unfold insert_child. destruct (check_conflicts _ _); [left; cbn [fst snd]; repeat split; discriminate|]. right. cbn [fst snd]. split; [reflexivity|].
    set (t := fold_left _ _ _). assert (T : In e (map snd t)) by (apply in_coll_sets; now left). clearbody t.
    set (s2 := emit (TAdded (e_ref e)) (set_routes t s)). pose proof (far_addping c e s2) as A.
    assert (R : nextc (add_ping e s2) = nextc s /\ nexte (add_ping e s2) = nexte s /\ routes (add_ping e s2) = t) by (unfold s2; repeat split; fr1).
    destruct R as (R1 & R2 & R3). destruct A as [[A1 A2 A3 A4 A5 A6 A7 A8] V].
    exists s, s2. split; [apply adds_refl|]. split; [reflexivity|]. split; [exact A1|].
    repeat split; try congruence; [right; split; [exact A3|now rewrite R3]|exact A5|exact A4|exact V|]. intros x L. now apply A6.
Qed.

Lemma far_welcome c e r s : k_bind (cs s c) = None -> k_st (cs s c) = Handshaking -> c < nextc s -> apart c s (welcome c e r s) /\
  view (cs (welcome c e r s) c) = (Some (e_ref e), Connected, k_kind (cs s c), k_fd (cs s c)).
Proof.
  intros B H L. unfold welcome. destruct (ap_addconn c (e_ref e) false s B H) as (A1 & A2 & A3).
  destruct (add_connection (e_ref e) c false s) as [s1 ok]. cbn [fst snd] in *.
  pose proof (far_open c e (reachable_by s1 (e_ref e)) (r_chans r) false s1) as F.
  assert (L1 : c < nextc s1) by (pose proof (far_nc c _ _ A1); lia). specialize (F L1).
  destruct (open_channels e (reachable_by s1 (e_ref e)) (r_chans r) false s1) as [s2 has]. cbn [fst] in F.
  assert (G : far c s1 (if has || reachable_by s1 (e_ref e) then s2 else gc_ep e s2)) by (destruct (_ || _); [exact F|eapply far_trans; [exact F|apply far_gce]]).
  destruct G as [G V]. split; [eapply ap_trans; eauto|congruence].
Qed.

Lemma get_endpoint_alive s i e : Inv s -> get_endpoint s i = Some e -> alive s e.
Proof.
  intros I G. apply (I_tab s I). unfold get_endpoint in G. destruct (is_parent s i); [right; left; exact G|].
  unfold find_route in G. destruct (lower_bound (routes s) (point i)) as [[k x]|] eqn:LB; [|discriminate].
  assert (X : In x (map snd (routes s))).
  { clear G I. revert LB. generalize (routes s) as t. induction t as [|[k' x'] t IH]; cbn [lower_bound map snd]; [discriminate|].
    destruct (range_ltb k' (point i)); [right; now apply IH|]. intros [= -> ->]. now left. }
  right; right; left. destruct (e_id x =? i) eqn:E1; [rewrite E1 in G; now injection G as <-|].
  destruct (contain_id k i); [rewrite E1 in G; discriminate|discriminate].
Qed.

Lemma reg_body_decided c r s : waits c s -> Inv s -> r_id r <> 0 -> peer_subnets (r_id r) (r_nets r) <> None ->
  decided c r s (fst (reg_body c r s)) (snd (reg_body c r s)).
Proof.
  intros W I Z U. pose proof W as [W1 W2 W3 W4 W5]. unfold reg_body. unfold is_connected. rewrite W2. cbn [cst_eqb].
  destruct (N.eqb_spec (r_id r) 0) as [?|_]; [contradiction|]. destruct (get_endpoint s (r_id r)) as [e|] eqn:G.
  - destruct (negb (my_id s =? 0) && _) eqn:Q.
    + cbn [fst snd]. apply (d_conflict c r s s e G); [|apply far_refl]. apply andb_prop in Q. destruct Q as [Q1 Q2].
      rewrite Bool.negb_true_iff in Q1, Q2. apply N.eqb_neq in Q1. apply Bool.andb_false_iff in Q2. split; [exact Q1|].
      destruct Q2 as [Q2|Q2]; [left; now apply N.eqb_neq|right]. intro E. apply bytes_eqb_true in E. congruence.
    + assert (NO : ~ other_process s r e).
      { intros [O1 O2]. apply N.eqb_neq in O1. rewrite O1 in Q. cbn [negb andb] in Q. apply Bool.negb_false_iff in Q. apply andb_prop in Q.
        destruct Q as [Q1 Q2]. apply N.eqb_eq in Q1. apply bytes_eqb_true in Q2. destruct O2; congruence. }
      destruct (ap_addconn c (e_ref e) (k_sh (cs s c)) s W3 W2) as (A1 & A2 & A3).
      destruct (add_connection (e_ref e) c (k_sh (cs s c)) s) as [s1 ok]. cbn [fst snd] in *. subst ok.
      apply (d_known c r s s1 e G NO A1). rewrite A3. unfold in_view. congruence.
  - unfold peer_subnets in U. destruct (reg_confs (r_id r) (r_nets r)) as [confs|]; [|congruence].
    destruct (is_child s (r_id r) && _); [cbn [fst snd]; apply d_refused; try discriminate; trivial; [reflexivity|apply far_refl]|].
    destruct (endpoint_subnets (r_id r) confs) as [subs|] eqn:ES; [|congruence]. pose proof (subnets_some _ _ _ Z ES) as NE.
    pose proof (far_ep_create c (r_id r) subs (r_pid r) (r_host r) s) as FC.
    assert (EC : let p := ep_create (r_id r) subs (r_pid r) (r_host r) s in e_ref (snd p) = nexte s /\ e_id (snd p) = r_id r /\ e_subs (snd p) = subs /\
      nexte (fst p) = nexte s + 1 /\ d_ep (es (fst p) (nexte s)) = snd p /\ conns (es (fst p) (nexte s)) = []).
    { cbv zeta. unfold ep_create. cbn [fst snd]. set (e0 := {| e_ref := _ |}). set (s1 := set_nexte _ _).
      assert (Y : es (insert_ping e0 s1) (nexte s) = es s1 (nexte s) \/ es (insert_ping e0 s1) (nexte s) = set_d_timer true (es s1 (nexte s))).
      { unfold insert_ping. destruct (_ || _); [now left|]. right. rewrite es_on_e. change (e_ref e0) with (nexte s). now rewrite N.eqb_refl. }
      assert (Y1 : es s1 (nexte s) = {| d_ep := e0; d_pid := r_pid r; d_host := r_host r; d_ctrl := None; d_data := []; d_listen := []; d_lfd := false; d_timer := false;
         d_fault := 0; d_ping := 0; d_created := 0 |}) by (unfold s1; cbn; unfold upd; now rewrite N.eqb_refl).
      repeat (split; [reflexivity|]). split; [rewrite (keeps (f := nexte) (g := insert_ping e0)); reflexivity|].
      split; destruct Y as [Y|Y]; rewrite Y, Y1; reflexivity. }
    cbv zeta in EC. destruct (ep_create (r_id r) subs (r_pid r) (r_host r) s) as [s1 e]. cbn [fst snd] in FC, EC.
    destruct EC as (E1 & E2 & E3 & E4 & E5 & E6). pose proof (waits_far c s s1 W FC) as W'. pose proof W' as [X1 X2 X3 X4 X5].
    set (bad := if bytes_eqb _ _ then _ else _).
    assert (BD : bad = E_OK \/ ((bad < 0)%Z /\ bad <> E_ID_CONFLICT /\ bad <> E_VERSION /\ bad <> E_ACCESS_DENY)).
    { unfold bad. destruct (bytes_eqb _ _); [|now left]. destruct (self s1); [destruct (subnets_contain _ _); [now left|]|]; right; repeat split; discriminate. }
    clearbody bad. destruct (bad =? E_OK)%Z eqn:BE.
    2:{ cbn [negb fst snd]. destruct BD as [BD|(BD1 & BD2 & BD3 & BD4)]; [apply Z.eqb_neq in BE; contradiction|].
        set (s2 := match nst s1 with NConnecting => _ | _ => _ end).
        assert (F2 : far c s1 s2) by (unfold s2; destruct (nst s1); try apply far_refl; apply far_shut).
        clearbody s2. pose proof (far_trans c _ _ _ FC F2) as F. pose proof (waits_far c _ _ W F) as [Y1 Y2 Y3 Y4 Y5].
        destruct (conn_reset_shut c s2 Y3) as [R1 R2]; [congruence|congruence|].
        assert (GE : far c (conn_reset c s2) (gc_ep e (conn_reset c s2))) by apply far_gce. destruct GE as [GE1 GE2].
        apply d_shut; trivial; [|congruence]. eapply ap_trans; [|exact GE1]. eapply ap_trans; [apply F|exact R1]. }
    cbn [negb]. rewrite <- E3 in NE. pose proof (added_endpoint c e s1 NE) as AE. cbv zeta in AE.
    destruct (add_endpoint e s1) as [s2 res]. cbn [fst snd] in AE. destruct AE as [(AE1 & -> & AE2 & AE3 & AE4)|(-> & AE)].
    + assert (T : (res <? 0)%Z = true) by now apply Z.ltb_lt. rewrite T. cbn [fst snd]. apply d_refused; trivial.
      eapply far_trans; [exact FC|]. unfold ep_drop. destruct (ep_held _ _); [apply far_refl|]. apply far_idle_ep. now rewrite E1.
    + cbn [Z.ltb Z.compare fst snd]. destruct AE as (u1 & u2 & U1 & U2 & U3 & U4 & U5 & U6 & U7 & U8 & U9 & U10).
      assert (VV : view (cs s2 c) = (None, Handshaking, KSock, true)) by (rewrite U7; now apply waits_view).
      assert (VB : k_bind (cs s2 c) = None /\ k_st (cs s2 c) = Handshaking /\ k_kind (cs s2 c) = KSock /\ k_fd (cs s2 c) = true) by (unfold view in VV; injection VV; auto).
      destruct VB as (V1 & V2 & V3 & V4). assert (L2 : c < nextc s2) by lia.
      destruct (far_welcome c e r s2 V1 V2 L2) as [FW VW]. destruct FW as [F1 F2 F3 F4 F5 F6 F7 F8].
      apply (d_new c r s (welcome c e r s2) e u1 u2); trivial.
      * rewrite E1 in *. rewrite F6 by lia. rewrite U10 by lia. exact E5.
      * eapply adds_trans; [apply (far_log c _ _ (proj1 FC))|exact U1].
      * eapply adds_trans; [exact U3|exact F1].
      * rewrite F2, F3. destruct FC as [FC _]. rewrite <- (far_r c _ _ FC), <- (far_p c _ _ FC). exact U4.
      * rewrite F5, U5. apply FC.
      * rewrite F4, U6. apply FC.
      * rewrite VW, V3, V4. reflexivity.
      * lia.
Qed.
