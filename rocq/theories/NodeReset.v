(** What closing and resetting do to the objects of a node, in closed form. *)
From Verif Require Import Base Subnet Route Address NodeTypes NodeConn NodeCore NodeFrame.
Local Open Scope N_scope.
Ltac Zify.zify_post_hook ::= idtac.

Lemma cs_on_c x c f s : cs (on_c c f s) x = if x =? c then f (cs s c) else cs s x.
Proof. reflexivity. Qed.
Lemma es_on_c c f s : es (on_c c f s) = es s. Proof. reflexivity. Qed.
Lemma es_on_e x e f s : es (on_e e f s) x = if x =? e then f (es s e) else es s x.
Proof. reflexivity. Qed.
Lemma cs_on_e e f s : cs (on_e e f s) = cs s. Proof. reflexivity. Qed.

Lemma cst_eqb_true a b : cst_eqb a b = true <-> a = b.
Proof. destruct a, b; split; intro H; (reflexivity || discriminate H). Qed.
Lemma opt_eqb_true a b : opt_eqb a b = true <-> a = b.
Proof.
  destruct a, b; cbn; split; intro H; try reflexivity; try discriminate.
  - apply N.eqb_eq in H. now subst.
  - injection H as ->. apply N.eqb_refl.
Qed.
Lemma memb_in x l : memb x l = true <-> In x l.
Proof.
  unfold memb. rewrite existsb_exists. split.
  - intros (y & I & E). apply N.eqb_eq in E. now subst.
  - intro I. exists x. split; [exact I|apply N.eqb_refl].
Qed.
Lemma in_rm x y l : In x (rm y l) <-> In x l /\ x <> y.
Proof.
  unfold rm. rewrite filter_In. split; intros [A B]; split; trivial.
  - intros ->. rewrite N.eqb_refl in B. discriminate.
  - apply N.eqb_neq in B. now rewrite B.
Qed.

(** The connection after [disconnect], after the end of [reset]. *)
Definition closed (k : conn) : conn :=
  match k_st k with
  | Disconnected | Disconnecting => k
  | _ => set_k_st Disconnected (set_k_kind KNone (set_k_proc false k))
  end.
Definition finished (k : conn) : conn :=
  {| k_st := k_st k; k_addr := k_addr k; k_bind := k_bind k; k_kind := k_kind k;
     k_proc := false; k_fd := false; k_lfd := false; k_sa := false; k_sh := false;
     k_tmp := false; k_fault := 0; k_start := (0, 0); k_ok := (0, 0);
     k_fail := (0, 0); k_pull := (0, 0) |}.
Definition resetted (k : conn) : conn := finished (set_k_bind None (closed k)).

Lemma cs_set_status x c v s :
  cs (set_status c v s) x = if x =? c then set_k_st v (cs s c) else cs s x.
Proof.
  unfold set_status. destruct (cst_eqb (k_st (cs s c)) v) eqn:E.
  - apply cst_eqb_true in E. destruct (N.eqb_spec x c) as [->|]; [|reflexivity].
    rewrite <- E. now destruct (cs s c).
  - destruct v; try reflexivity. rewrite (keeps (f := cs)). reflexivity.
Qed.
Lemma set_k_proc_false_id k : k_proc k = false -> set_k_proc false k = k.
Proof. destruct k. cbn. now intros ->. Qed.
Lemma cs_disconnect x c s :
  cs (disconnect c s) x = if x =? c then closed (cs s c) else cs s x.
Proof.
  unfold disconnect, closed. destruct (k_st (cs s c)) eqn:E;
    try (destruct (N.eqb_spec x c) as [->|]; reflexivity).
  all: set (s1 := match k_kind (cs (set_status c Disconnecting s) c) with
                  | KNone => set_status c Disconnecting s
                  | _ => emit (TClose c) (set_status c Disconnecting s) end).
  all: assert (H1 : forall y, cs (on_disconnect c s1) y = if y =? c then set_k_st Disconnecting (cs s c) else cs s y)
    by (intro y; rewrite (keeps (f := cs)); unfold s1;
        destruct (k_kind _); apply cs_set_status).
  all: generalize dependent (on_disconnect c s1); clear s1; intros s1 H1; cbv zeta.
  all: rewrite cs_set_status, !cs_on_c, N.eqb_refl.
  all: destruct (k_proc (cs s1 c)) eqn:P; rewrite ?cs_on_c, ?(keeps (f := cs) (g := rm_proc _)), ?N.eqb_refl;
    destruct (N.eqb_spec x c) as [->|NE]; rewrite ?H1, ?N.eqb_refl.
  all: try (apply N.eqb_neq in NE; rewrite NE; reflexivity); try reflexivity.
  all: rewrite H1, N.eqb_refl in P; cbn in P; destruct (cs s c); cbn in *; subst; reflexivity.
Qed.
Lemma cs_conn_close x c s :
  cs (conn_close c s) x = if x =? c then closed (cs s c) else cs s x.
Proof. unfold conn_close. rewrite cs_disconnect, (keeps (f := cs) (g := rm_timer c)). reflexivity. Qed.
Lemma cs_conn_fin x c s :
  cs (conn_fin c s) x = if x =? c then finished (cs s c) else cs s x.
Proof. unfold conn_fin. rewrite cs_on_c, (keeps (f := cs) (g := gc_conn c)). reflexivity. Qed.
Lemma cs_conn_reset_in x c s :
  cs (conn_reset_in c s) x = if x =? c then resetted (cs s c) else cs s x.
Proof.
  unfold conn_reset_in, resetted. rewrite cs_conn_fin, !cs_on_c, !cs_conn_close, N.eqb_refl.
  destruct (N.eqb_spec x c) as [->|]; reflexivity.
Qed.
Lemma resetted_idem k : resetted (resetted k) = resetted k.
Proof. unfold resetted, closed. destruct k as [st ? ? ? ? ? ? ? ? ? ? ? ? ? ?]. destruct st; reflexivity. Qed.
Lemma cs_resets_in x l s :
  cs (resets_in l s) x = if memb x l then resetted (cs s x) else cs s x.
Proof.
  revert s. induction l as [|c l IH]; intro s; [reflexivity|].
  change (resets_in (c :: l) s) with (resets_in l (conn_reset_in c s)).
  rewrite IH, !cs_conn_reset_in. change (memb x (c :: l)) with ((x =? c) || memb x l).
  destruct (N.eqb_spec x c) as [->|]; cbn [orb]; destruct (memb _ l); rewrite ?resetted_idem; reflexivity.
Qed.

(** The endpoint after [reset]. *)
Definition stripped (d : epd) : epd :=
  {| d_ep := d_ep d; d_pid := d_pid d; d_host := d_host d; d_ctrl := None; d_data := [];
     d_listen := []; d_lfd := false; d_timer := false; d_fault := d_fault d; d_ping := d_ping d;
     d_created := d_created d |}.
Lemma es_clear_ping x e s :
  es (clear_ping e s) x = if x =? e then set_d_timer false (es s e) else es s x.
Proof.
  unfold clear_ping. destruct (d_timer (es s e)) eqn:T; [reflexivity|].
  destruct (N.eqb_spec x e) as [->|]; [|reflexivity]. destruct (es s e). cbn in *. now subst.
Qed.
Lemma set_k_bind_none_resetted k : resetted (set_k_bind None k) = resetted k.
Proof. unfold resetted, closed. destruct k as [st ? ? ? ? ? ? ? ? ? ? ? ? ? ?]. destruct st; reflexivity. Qed.

Lemma ep_reset_eq busy gone e s : ep_reset busy gone e s =
  let s := match d_ctrl (es s e) with
           | Some c =>
               let s := on_c c (set_k_bind None) s in
               if opt_eqb busy (Some c) then s else conn_reset_in c s
           | None => s
           end in
  let s := resets_in (d_data (es s e)) s in
  let s := on_e e (fun d => set_d_listen [] (set_d_data [] (set_d_ctrl None d))) s in
  let s := clear_ping e s in
  let s := if gone then s else gc_ep (d_ep (es s e)) s in
  on_e e (set_d_lfd false) s.
Proof. reflexivity. Qed.
Lemma es_ep_reset x busy gone e s :
  es (ep_reset busy gone e s) x = if x =? e then stripped (es s e) else es s x.
Proof.
  rewrite ep_reset_eq. cbv zeta.
  set (s1 := match d_ctrl (es s e) with Some c => _ | None => s end).
  assert (E1 : es s1 = es s).
  { unfold s1. destruct (d_ctrl (es s e)); [|reflexivity].
    destruct (opt_eqb _ _); [reflexivity|]. now rewrite (keeps (f := es)). }
  generalize dependent s1. intros s1 E1.
  set (s2 := resets_in _ s1).
  assert (E2 : es s2 = es s) by (unfold s2; now rewrite (keeps (f := es))).
  generalize dependent s2. intros s2 E2. cbv zeta.
  rewrite es_on_e.
  set (s3 := on_e e _ s2). set (s4 := clear_ping e s3).
  assert (E5 : es (if gone then s4 else gc_ep (d_ep (es s4 e)) s4) = es s4).
  { destruct gone; [reflexivity|]. now rewrite (keeps (f := es)). }
  rewrite E5. unfold s4. rewrite !es_clear_ping. unfold s3. rewrite !es_on_e, N.eqb_refl, E2.
  destruct (N.eqb_spec x e) as [->|]; reflexivity.
Qed.
Lemma cs_ep_reset x busy gone e s :
  cs (ep_reset busy gone e s) x =
  if memb x (d_data (es s e)) then resetted (cs s x)
  else if opt_eqb (d_ctrl (es s e)) (Some x)
       then (if opt_eqb busy (Some x) then set_k_bind None (cs s x) else resetted (cs s x))
       else cs s x.
Proof.
  rewrite ep_reset_eq. cbv zeta.
  set (s1 := match d_ctrl (es s e) with Some c => _ | None => s end).
  assert (E1 : es s1 = es s).
  { unfold s1. destruct (d_ctrl (es s e)); [|reflexivity].
    destruct (opt_eqb _ _); [reflexivity|]. now rewrite (keeps (f := es)). }
  assert (C1 : cs s1 x = if opt_eqb (d_ctrl (es s e)) (Some x)
               then (if opt_eqb busy (Some x) then set_k_bind None (cs s x) else resetted (cs s x)) else cs s x).
  { unfold s1. destruct (d_ctrl (es s e)) as [c|]; [|reflexivity]. change (opt_eqb (Some c) (Some x)) with (c =? x).
    destruct (opt_eqb busy (Some c)) eqn:B.
    - rewrite cs_on_c, N.eqb_sym. destruct (N.eqb_spec c x) as [->|]; [now rewrite B|reflexivity].
    - rewrite cs_conn_reset_in, !cs_on_c, N.eqb_refl, N.eqb_sym.
      destruct (N.eqb_spec c x) as [->|]; [rewrite B|reflexivity]. apply set_k_bind_none_resetted. }
  rewrite <- E1.
  rewrite cs_on_e. set (s3 := clear_ping e _).
  assert (E5 : cs (if gone then s3 else gc_ep (d_ep (es s3 e)) s3) = cs s3).
  { destruct gone; [reflexivity|]. now rewrite (keeps (f := cs)). }
  rewrite E5. unfold s3. rewrite (keeps (f := cs) (g := clear_ping e)), cs_on_e, cs_resets_in, C1, E1.
  destruct (memb x (d_data (es s e))); [|reflexivity].
  destruct (opt_eqb (d_ctrl (es s e)) (Some x)); [|reflexivity].
  destruct (opt_eqb busy (Some x)); [apply set_k_bind_none_resetted|apply resetted_idem].
Qed.

(** The connections of an endpoint. *)
Definition conns (d : epd) : list N :=
  match d_ctrl d with Some c => c :: d_data d | None => d_data d end.
(** Whether losing [c] takes the endpoint down. *)
Definition drops (d : epd) (c : N) : bool :=
  opt_eqb (d_ctrl d) (Some c) || (memb c (d_data d) && match rm c (d_data d) with [] => true | _ => false end).
(** The connections that [conn_reset c] resets. *)
Definition victims (s : node) (c : N) : list N :=
  c :: match k_bind (cs s c) with
       | None => []
       | Some e => if drops (es s e) c then conns (es s e) else []
       end.
(** Every bound connection is listed by its endpoint. *)
Definition listed (s : node) : Prop :=
  forall c e, k_bind (cs s c) = Some e -> In c (conns (es s e)).

Lemma finished_resetted k : finished (resetted k) = resetted k.
Proof. reflexivity. Qed.
Lemma bind_closed k : k_bind (closed k) = k_bind k.
Proof. unfold closed. now destruct (k_st k). Qed.
Lemma resetted_closed k : resetted (closed k) = resetted k.
Proof. unfold resetted, closed. destruct k as [st ? ? ? ? ? ? ? ? ? ? ? ? ? ?]. destruct st; reflexivity. Qed.
Lemma unbound_resetted k : k_bind k = None -> resetted k = finished (closed k).
Proof. intro H. unfold resetted. f_equal. rewrite <- bind_closed in H. destruct (closed k). cbn in *. now subst. Qed.
Lemma drops_data (d : epd) c :
  opt_eqb (d_ctrl d) (Some c) = false -> In c (conns d) -> memb c (d_data d) = true.
Proof.
  unfold conns. intros H I. apply memb_in. destruct (d_ctrl d) as [c'|]; [|exact I].
  cbn in H. destruct I as [->|I]; [now rewrite N.eqb_refl in H|exact I].
Qed.

Lemma es_conn_close c s : es (conn_close c s) = es s. Proof. apply (keeps (f := es)). Qed.

Lemma cs_conn_reset x c s : listed s ->
  cs (conn_reset c s) x = if memb x (victims s c) then resetted (cs s x) else cs s x.
Proof.
  intro L. specialize (L c). unfold conn_reset. cbv zeta.
  assert (CC : forall y, cs (conn_close c s) y = if y =? c then closed (cs s c) else cs s y)
    by (intro; apply cs_conn_close).
  assert (EC : es (conn_close c s) = es s) by apply es_conn_close.
  set (s1 := conn_close c s) in *. clearbody s1.
  rewrite cs_conn_fin. unfold victims. change (memb x (c :: ?l)) with ((x =? c) || memb x l).
  assert (B : k_bind (cs s1 c) = k_bind (cs s c)) by (rewrite CC, N.eqb_refl; apply bind_closed).
  rewrite B. destruct (k_bind (cs s c)) as [e|] eqn:KB.
  2:{ destruct (N.eqb_spec x c) as [->|NE]; cbn [orb memb existsb].
      - rewrite CC, N.eqb_refl. symmetry. now apply unbound_resetted.
      - rewrite CC. apply N.eqb_neq in NE. now rewrite NE. }
  specialize (L e eq_refl). rewrite EC. unfold drops.
  destruct (opt_eqb (d_ctrl (es s e)) (Some c)) eqn:C; cbn [orb].
  - rewrite !cs_ep_reset, EC. rewrite !CC, N.eqb_refl.
    assert (D : opt_eqb (Some c) (Some c) = true) by (now apply opt_eqb_true).
    destruct (N.eqb_spec x c) as [->|NE]; cbn [orb].
    + destruct (memb c (d_data (es s e))); [rewrite resetted_closed; reflexivity|].
      rewrite C, D. reflexivity.
    + destruct (memb x (d_data (es s e))) eqn:M.
      * assert (M' : memb x (conns (es s e)) = true).
        { apply memb_in. unfold conns. apply memb_in in M. destruct (d_ctrl _); [now right|exact M]. }
        now rewrite M'.
      * assert (O : opt_eqb (d_ctrl (es s e)) (Some x) = false).
        { apply opt_eqb_true in C. rewrite C. cbn. apply N.eqb_neq. auto. }
        rewrite O. assert (M' : memb x (conns (es s e)) = false).
        { apply Bool.not_true_is_false. intro I. apply memb_in in I. unfold conns in I.
          apply opt_eqb_true in C. rewrite C in I. destruct I as [I|I]; [congruence|].
          apply memb_in in I. congruence. }
        now rewrite M'.
  - assert (MD : memb c (d_data (es s e)) = true) by (now apply drops_data).
    rewrite MD. cbn [andb].
    set (s2 := on_e e _ _).
    assert (E2 : es s2 e = set_d_data (rm c (d_data (es s e))) (es s e)).
    { unfold s2. rewrite es_on_e, es_on_c, N.eqb_refl, EC. reflexivity. }
    assert (C2 : forall y, cs s2 y = if y =? c then set_k_bind None (closed (cs s c)) else cs s y).
    { intro y. unfold s2. rewrite cs_on_e, cs_on_c, !CC, N.eqb_refl. destruct (y =? c); reflexivity. }
    clearbody s2. rewrite E2. cbn [d_data set_d_data].
    destruct (rm c (d_data (es s e))) as [|c1 l] eqn:R.
    + rewrite !cs_ep_reset, !E2. cbn [d_data d_ctrl set_d_data memb existsb].
      rewrite !C2, N.eqb_refl, C.
      destruct (N.eqb_spec x c) as [->|NE]; cbn [orb]; [reflexivity|].
      assert (O : opt_eqb (Some c) (Some x) = false) by (cbn; apply N.eqb_neq; auto). rewrite O.
      assert (M : memb x (conns (es s e)) = opt_eqb (d_ctrl (es s e)) (Some x)).
      { apply Bool.eq_iff_eq_true. rewrite memb_in, opt_eqb_true. unfold conns.
        assert (ND : ~ In x (d_data (es s e))).
        { intro I. assert (I' : In x (rm c (d_data (es s e)))) by (now apply in_rm). now rewrite R in I'. }
        destruct (d_ctrl (es s e)) as [c2|]; cbn [In].
        - split; [intros [->|I]; [reflexivity|contradiction]|intros [= ->]; now left].
        - split; [contradiction|discriminate]. }
      rewrite M. reflexivity.
    + destruct (N.eqb_spec x c) as [->|NE]; cbn [orb memb existsb]; rewrite ?C2, ?N.eqb_refl; [reflexivity|].
      apply N.eqb_neq in NE. now rewrite NE.
Qed.

Lemma es_conn_reset x c s : listed s ->
  es (conn_reset c s) x =
  match k_bind (cs s c) with
  | None => es s x
  | Some e => if x =? e then (if drops (es s e) c then stripped (es s e)
                              else set_d_data (rm c (d_data (es s e))) (es s e))
              else es s x
  end.
Proof.
  intro L. specialize (L c). unfold conn_reset. cbv zeta.
  assert (CC : forall y, cs (conn_close c s) y = if y =? c then closed (cs s c) else cs s y)
    by (intro; apply cs_conn_close).
  assert (EC : es (conn_close c s) = es s) by apply es_conn_close.
  set (s1 := conn_close c s) in *. clearbody s1.
  rewrite (keeps (f := es) (g := conn_fin c)).
  assert (B : k_bind (cs s1 c) = k_bind (cs s c)) by (rewrite CC, N.eqb_refl; apply bind_closed).
  rewrite B. destruct (k_bind (cs s c)) as [e|] eqn:KB; [|now rewrite EC].
  specialize (L e eq_refl). rewrite EC. unfold drops.
  destruct (opt_eqb (d_ctrl (es s e)) (Some c)) eqn:C; cbn [orb].
  - rewrite es_ep_reset, EC. reflexivity.
  - assert (MD : memb c (d_data (es s e)) = true) by (now apply drops_data).
    rewrite MD. cbn [andb].
    set (s2 := on_e e _ _).
    assert (E2 : forall y, es s2 y = if y =? e then set_d_data (rm c (d_data (es s e))) (es s e) else es s y).
    { intro y. unfold s2. rewrite es_on_e, es_on_c, EC. reflexivity. }
    clearbody s2. rewrite E2, N.eqb_refl. cbn [d_data set_d_data].
    destruct (rm c (d_data (es s e))) as [|c1 l] eqn:R; [|apply E2].
    rewrite es_ep_reset, !E2, N.eqb_refl. destruct (x =? e); reflexivity.
Qed.

(** Timer lists. *)
Lemma filter_true {A} (f : A -> bool) l : (forall x, In x l -> f x = true) -> filter f l = l.
Proof.
  induction l as [|a l IH]; intro H; [reflexivity|]. cbn [filter].
  rewrite (H a (or_introl eq_refl)), IH; [reflexivity|]. intros; apply H; now right.
Qed.
Lemma filter_filter {A} (f g : A -> bool) l : filter f (filter g l) = filter (fun x => g x && f x) l.
Proof.
  induction l as [|a l IH]; [reflexivity|]. cbn [filter].
  destruct (g a); cbn [filter andb]; [destruct (f a)|]; now rewrite ?IH.
Qed.
Lemma timer_rm_timer c s :
  connecting (rm_timer c s) = filter (fun p => negb (snd p =? c)) (connecting s).
Proof.
  unfold rm_timer. destruct (in_timer s c) eqn:T.
  - destruct (is_connected s c); reflexivity.
  - symmetry. apply filter_true. intros p I. unfold in_timer in T.
    destruct (snd p =? c) eqn:E; [|reflexivity]. exfalso.
    assert (X : existsb (fun p => snd p =? c) (connecting s) = true) by (apply existsb_exists; eauto).
    congruence.
Qed.
Lemma timer_set_status c v s :
  v <> Connected -> connecting (set_status c v s) = connecting s.
Proof. intro NE. unfold set_status. destruct (cst_eqb _ v); [reflexivity|]. destruct v; congruence || reflexivity. Qed.
Lemma timer_disconnect c s : connecting (disconnect c s) = connecting s.
Proof.
  unfold disconnect. destruct (k_st (cs s c)); try reflexivity.
  all: rewrite timer_set_status by discriminate; cbv zeta.
  all: set (s1 := set_status c Disconnecting s).
  all: assert (E : connecting s1 = connecting s) by (apply timer_set_status; discriminate).
  all: clearbody s1.
  all: set (s2 := match k_kind (cs s1 c) with KNone => s1 | _ => emit (TClose c) s1 end).
  all: assert (E2 : connecting s2 = connecting s1) by (unfold s2; now destruct (k_kind _)).
  all: clearbody s2.
  all: set (s3 := on_disconnect c s2).
  all: assert (E3 : connecting s3 = connecting s2) by (apply (keeps (f := connecting))).
  all: clearbody s3.
  all: destruct (k_proc (cs s3 c)); unfold on_c, rm_proc; cbn [connecting set_cs set_procs]; congruence.
Qed.
Lemma timer_conn_close c s :
  connecting (conn_close c s) = filter (fun p => negb (snd p =? c)) (connecting s).
Proof. unfold conn_close. rewrite timer_disconnect. apply timer_rm_timer. Qed.
Lemma timer_conn_reset_in c s :
  connecting (conn_reset_in c s) = filter (fun p => negb (snd p =? c)) (connecting s).
Proof.
  unfold conn_reset_in. rewrite (keeps (f := connecting) (g := conn_fin c)). apply timer_conn_close.
Qed.
Lemma timer_resets_in l s :
  connecting (resets_in l s) = filter (fun p => negb (memb (snd p) l)) (connecting s).
Proof.
  revert s. induction l as [|c l IH]; intro s.
  - symmetry. now apply filter_true.
  - change (resets_in (c :: l) s) with (resets_in l (conn_reset_in c s)).
    rewrite IH, timer_conn_reset_in, filter_filter. apply filter_ext. intro p.
    change (memb (snd p) (c :: l)) with ((snd p =? c) || memb (snd p) l).
    now destruct (snd p =? c).
Qed.
Lemma timer_ep_reset busy gone e s :
  connecting (ep_reset busy gone e s) =
  filter (fun p => negb (memb (snd p) (conns (es s e)) && negb (opt_eqb (d_ctrl (es s e)) (Some (snd p))
                     && opt_eqb busy (Some (snd p)) && negb (memb (snd p) (d_data (es s e)))))) (connecting s).
Proof.
  rewrite ep_reset_eq. cbv zeta.
  set (s1 := match d_ctrl (es s e) with Some c => _ | None => s end).
  assert (E1 : es s1 = es s).
  { unfold s1. destruct (d_ctrl (es s e)); [|reflexivity].
    destruct (opt_eqb _ _); [reflexivity|]. now rewrite (keeps (f := es)). }
  assert (T1 : connecting s1 = filter (fun p => negb (opt_eqb (d_ctrl (es s e)) (Some (snd p)) &&
                 negb (opt_eqb busy (Some (snd p))))) (connecting s)).
  { unfold s1. destruct (d_ctrl (es s e)) as [c|].
    - destruct (opt_eqb busy (Some c)) eqn:B.
      + symmetry. apply filter_true. intros p _. cbn [opt_eqb]. destruct (N.eqb_spec c (snd p)) as [->|]; [now rewrite B|reflexivity].
      + rewrite timer_conn_reset_in. apply filter_ext. intro p. cbn [opt_eqb]. rewrite N.eqb_sym.
        destruct (N.eqb_spec c (snd p)) as [->|]; [now rewrite B|reflexivity].
    - symmetry. now apply filter_true. }
  generalize dependent s1. intros s1 E1 T1.
  set (s3 := on_e e _ (resets_in _ s1)).
  assert (T3 : connecting s3 = connecting (resets_in (d_data (es s1 e)) s1)) by reflexivity.
  clearbody s3. cbn [connecting on_e set_es].
  set (s4 := clear_ping e s3). assert (T4 : connecting s4 = connecting s3) by (apply (keeps (f := connecting))).
  clearbody s4.
  transitivity (connecting s4).
  { destruct gone; [reflexivity|]. apply (keeps (f := connecting)). }
  rewrite T4, T3, timer_resets_in, T1, E1, filter_filter. apply filter_ext. intro p.
  assert (M : memb (snd p) (conns (es s e)) = opt_eqb (d_ctrl (es s e)) (Some (snd p)) || memb (snd p) (d_data (es s e))).
  { unfold conns. destruct (d_ctrl (es s e)); [|reflexivity]. cbn [opt_eqb]. rewrite N.eqb_sym. reflexivity. }
  rewrite M. clear M. destruct (opt_eqb (d_ctrl _) _), (opt_eqb busy _), (memb (snd p) (d_data (es s e))); reflexivity.
Qed.
Lemma timer_conn_reset c s : listed s ->
  connecting (conn_reset c s) = filter (fun p => negb (memb (snd p) (victims s c))) (connecting s).
Proof.
  intro L. specialize (L c). unfold conn_reset. cbv zeta.
  assert (CC : forall y, cs (conn_close c s) y = if y =? c then closed (cs s c) else cs s y)
    by (intro; apply cs_conn_close).
  assert (EC : es (conn_close c s) = es s) by apply es_conn_close.
  assert (TC : connecting (conn_close c s) = filter (fun p => negb (snd p =? c)) (connecting s)) by apply timer_conn_close.
  set (s1 := conn_close c s) in *. clearbody s1.
  rewrite (keeps (f := connecting) (g := conn_fin c)). unfold victims.
  assert (B : k_bind (cs s1 c) = k_bind (cs s c)) by (rewrite CC, N.eqb_refl; apply bind_closed).
  assert (P0 : filter (fun p => negb (snd p =? c)) (connecting s) =
               filter (fun p => negb (memb (snd p) [c])) (connecting s)).
  { apply filter_ext. intro p. cbn. now rewrite Bool.orb_false_r. }
  rewrite B. destruct (k_bind (cs s c)) as [e|] eqn:KB; [|now rewrite TC].
  specialize (L e eq_refl). rewrite EC. unfold drops.
  destruct (opt_eqb (d_ctrl (es s e)) (Some c)) eqn:C; cbn [orb].
  - rewrite timer_ep_reset, TC, filter_filter, EC. apply filter_ext. intro p.
    change (memb (snd p) (c :: ?l)) with ((snd p =? c) || memb (snd p) l).
    change (opt_eqb (Some c) (Some (snd p))) with (c =? snd p). rewrite (N.eqb_sym c).
    destruct (snd p =? c); [reflexivity|]. cbn [orb negb andb]. rewrite Bool.andb_false_r. cbn. now rewrite Bool.andb_true_r.
  - assert (MD : memb c (d_data (es s e)) = true) by (now apply drops_data).
    rewrite MD. cbn [andb].
    set (s2 := on_e e _ _).
    assert (E2 : es s2 e = set_d_data (rm c (d_data (es s e))) (es s e)).
    { unfold s2. rewrite es_on_e, es_on_c, N.eqb_refl, EC. reflexivity. }
    assert (T2 : connecting s2 = connecting s1) by reflexivity.
    clearbody s2. rewrite E2. cbn [d_data set_d_data].
    destruct (rm c (d_data (es s e))) as [|c1 l] eqn:R; [|congruence].
    rewrite timer_ep_reset, T2, TC, filter_filter, E2. apply filter_ext. intro p.
    change (memb (snd p) (c :: ?l)) with ((snd p =? c) || memb (snd p) l).
    destruct (N.eqb_spec (snd p) c) as [|NE]; [reflexivity|]. cbn [orb negb andb].
    assert (O : opt_eqb (Some c) (Some (snd p)) = false) by (cbn; apply N.eqb_neq; auto). rewrite O.
    rewrite Bool.andb_false_r. cbn [andb negb]. rewrite Bool.andb_true_r. f_equal.
    apply Bool.eq_iff_eq_true. rewrite !memb_in. unfold conns. cbn [d_ctrl d_data set_d_data].
    assert (ND : ~ In (snd p) (d_data (es s e))).
    { intro I. assert (I' : In (snd p) (rm c (d_data (es s e)))) by (now apply in_rm). now rewrite R in I'. }
    destruct (d_ctrl (es s e)); cbn [In]; intuition.
Qed.
