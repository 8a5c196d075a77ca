(** Properties of ping rounds: silent peers are removed, answering peers are not. *)
From Coq Require Import Sorted.
From Verif Require Import Base Subnet Route RouteProof Address NodeTypes NodeConn NodeCore NodeMsg Node
  NodeFrame NodeReset NodeInv NodeKeep NodeSteps NodeCtx NodeReach NodeSpec NodeLog NodeNotice NodeRoute NodeAuth NodeTime NodePing NodeWeary
  NodeDead NodeExample PropNodePing.
Local Open Scope N_scope.
Ltac Zify.zify_post_hook ::= idtac.

(** ** C36: silent peers *)
(** At time [now] a call of [proc] that receives nothing has a ping round for
    endpoint [e]: the node runs and has an id, the timer of [e] is due, no due
    endpoint is idle (see C37), and nobody else uses the id of [e]. *)
Record round (e now : N) (s : node) : Prop := {
  O_run : nst s <> NCreated;
  O_up : fl_shut s = false;
  O_id : my_id s <> 0;
  O_due : exists t, In (t, e) (pings (before_pings now [] s)) /\ t <= now;
  O_active : active now (before_pings now [] s);
  O_sorted : StronglySorted N.le (map fst (pings (before_pings now [] s)));
  O_lone : lone e (before_pings now [] s) }.
(** A history of calls during which nothing arrives from [e], with [k] ping rounds of
    [e].  [strict]: the fault counter is within the limit when a round starts. *)
Inductive hush (e : N) (strict : bool) : N -> node -> node -> Prop :=
| hush_nil s : hush e strict 0 s s
| hush_call n ev k s s1 s2 : step n ev s = Some s1 -> unheard e ev s s1 -> hush e strict k s1 s2 -> hush e strict k s s2
| hush_round n now k s s1 s2 : step n (EProc now []) s = Some s1 -> round e now s ->
    (strict = true -> d_fault (es (before_pings now [] s) e) <= x_tol (cf s)) ->
    hush e strict k s1 s2 -> hush e strict (k + 1) s s2.
Lemma hush_does e b k s s' : hush e b k s s' -> good s -> does true s s'.
Proof.
  induction 1 as [s|n ev k s s1 s2 E U H IH|n now k s s1 s2 E R F H IH]; intro G; [now apply does_refl| |].
  - assert (D : does true s s1) by (eapply does_step; [exact G| |exact E]; destruct ev; cbn; auto). eapply does_trans; [exact D|]. apply IH, D.
  - assert (D : does true s s1) by (eapply does_step; [exact G| |exact E]; cbn; auto). eapply does_trans; [exact D|]. apply IH, D.
Qed.
Lemma hush_patience e strict k s s' : hush e strict k s s' -> good s -> sound s -> settled s' -> In (TAdded e) (log s) ->
  gone e s' \/ (patience (x_tol (cf s')) (es s' e) + k <= patience (x_tol (cf s)) (es s e) /\
                (strict = true -> 0 < k -> k + 1 <= patience (x_tol (cf s)) (es s e))).
Proof.
  induction 1 as [s|n ev k s s1 s2 E U H IH|n now k s s1 s2 E R F H IH]; intros G SO S A.
  - right. split; [lia|]. intros _ L. lia.
  - assert (D : does true s s1) by (eapply does_step; [exact G| |exact E]; destruct ev; cbn; auto).
    pose proof (does_longer _ _ _ (proj1 G) D) as L.
    assert (P := wr_patience e s s1 (wr_step e n ev s s1 E U) (proj2 (added_range e s SO A))).
    destruct IH as [X|[X Y]]; trivial; [apply D|eapply sound_does; eauto|eapply in_longer; eauto|now left|].
    right. split; [lia|]. intros T K. specialize (Y T K). lia.
  - assert (D : does true s s1) by (eapply does_step; [exact G| |exact E]; cbn; auto).
    pose proof (does_longer _ _ _ (proj1 G) D) as L. pose proof (hush_does _ _ _ _ _ H (proj2 D)) as D2.
    destruct (before_good now [] s G (O_run _ _ _ R)) as [GB W].
    unfold step, step_ret in E. destruct (proc n now [] s) as [s0|] eqn:PR; cbn [option_map fst] in E; [|discriminate]. injection E as ->.
    rewrite proc_before in PR by apply R. set (b := before_pings now [] s) in *.
    assert (WB : wr e s b) by apply wr_before.
    assert (DB : does true s b).
    { subst b. unfold before_pings. cbv zeta. cbn [fold_left].
      assert (D1 : does true s (if sec s <? now then set_sec now s else s)).
      { destruct (N.ltb_spec (sec s) now); [apply does_sec; [exact G|lia]|now apply does_refl]. }
      eapply does_trans; [exact D1|]. set (sa := if sec s <? now then set_sec now s else s) in *. clearbody sa. apply good_of in D1.
      assert (D3 : does true sa (sweep (length (connecting sa)) now sa)) by (eapply (does_steps true true); [exact D1|apply st_sweep, D1|apply kc_sweep]).
      eapply does_trans; [exact D3|]. apply good_of in D3. eapply (does_steps true true); [exact D3|apply st_parent_op, D3|apply kc_parent_op]. }
    assert (IDB : self b = self s).
    { subst b. unfold before_pings. cbv zeta. cbn [fold_left]. set (sa := if sec s <? now then set_sec now s else s).
      assert (EA : self sa = self s) by (subst sa; now destruct (sec s <? now)). clearbody sa. rewrite <- EA.
      rewrite (C_self _ _ (kc_parent_op now _)). apply (C_self _ _ (kc_sweep _ _ _)). }
    destruct R as [R1 R2 R3 (t & R4 & R5) R6 R7 R8]. fold b in F, R4, R6, R7, R8.
    clearbody b. destruct (ping_loop n now None b) as [s5|] eqn:PL; [|discriminate]. injection PR as E1.
    assert (D5 : does true b s5).
    { eapply (does_steps true true); [exact GB| |eapply kc_ping_loop; exact PL].
      apply (st_ping_loop true now n None b s5); [apply GB|exact W|intros ? X; discriminate X|exact PL]. }
    pose proof (does_round true s5 (proj2 D5)) as D6. rewrite E1 in D6.
    assert (W6 : wr e s5 s1).
    { rewrite <- E1. eapply wr_trans; [apply wr_dispatch_self|]. eapply wr_trans; [apply wr_collect|]. apply wr_stop. }
    pose proof (sound_does s b SO DB) as SB. pose proof (sound_does b s5 SB D5) as S5. pose proof (sound_does s5 s1 S5 D6) as S1.
    assert (TB : settled b).
    { apply (settled_does b s5 SB D5). apply (settled_does s5 s1 S5 D6). now apply (settled_does s1 s2 S1 D2). }
    assert (AB : In (TAdded e) (log b)) by (eapply in_longer; [eapply does_longer; [apply G|exact DB]|exact A]).
    pose proof (added_range e b SB AB) as RB.
    assert (IB : my_id b <> 0) by (unfold my_id; rewrite IDB; exact R3).
    assert (SEB : self b <> None) by (intro X; apply IB; unfold my_id; now rewrite X).
    assert (Y : ready e b) by now constructor.
    pose proof (loop_round now t e n None b s5 Y W R6 SEB IB R4 R5 (split_sorted now b R7) ltac:(discriminate) PL) as BO.
    assert (L6 : longer s5 s1) by (eapply does_longer; [apply D5|exact D6]).
    assert (L2 : longer s1 s2) by (eapply does_longer; [apply D|exact D2]).
    destruct BO as [BO|[B1 B2]]; [left; apply (gone_longer e s5); [eapply longer_trans; eauto|exact BO]|].
    assert (P0 := wr_patience e s b WB (proj2 (added_range e s SO A))).
    assert (A5 : In (TAdded e) (log s5)) by (eapply in_longer; [eapply does_longer; [apply GB|exact D5]|exact AB]).
    assert (P6 := wr_patience e s5 s1 W6 (proj2 (added_range e s5 S5 A5))).
    assert (A1 : In (TAdded e) (log s1)) by (eapply in_longer; [exact L|exact A]).
    destruct IH as [X|[X Z]]; trivial; [apply D|now left|].
    right. split; [lia|]. intros T _. assert (CB : cf b = cf s) by apply WB. rewrite <- CB in F. specialize (B2 (F T)).
    destruct (N.eq_dec k 0) as [->|K]; [lia|]. specialize (Z T ltac:(lia)). lia.
Qed.
Lemma patience_max tol d : patience tol d <= tol + 2.
Proof. unfold patience. destruct (_ =? _); lia. Qed.
(** A peer from which nothing arrives is removed, and the application notified, after at
    most [fault_tolerant + 2] ping rounds.  (Missing for the full statement: the parent,
    which is pinged elsewhere; configurations with ill-formed address ranges; and a
    fault counter that is above the limit although the endpoint was kept.) *)
Theorem C36_silent_removed_partial e k s s' : reachable s -> In (TAdded e) (log s) -> hush e true k s s' -> settled s' ->
  x_tol (cf s) + 2 <= k -> In (TRemoved e) (log s').
Proof.
  intros R A H S K. destruct (hush_patience _ _ _ _ _ H (reachable_good s R) (reachable_sound s R) S A) as [X|[_ X]]; [exact X|].
  pose proof (patience_max (x_tol (cf s)) (es s e)). specialize (X eq_refl). lia.
Qed.
(** Whether [proc] at [now] has a round for [e] can be computed. *)
Definition sorted_b (l : list N) : bool := forallb (fun p => fst p <=? snd p) (combine l (tl l)).
Lemma sorted_b_ok l : sorted_b l = true -> StronglySorted N.le l.
Proof.
  intro H. apply Sorted_StronglySorted; [intros a b c; lia|]. revert H. unfold sorted_b. induction l as [|x [|y l] IH]; intro H.
  - constructor.
  - repeat constructor.
  - cbn in H. apply andb_true_iff in H as [H1 H2]. constructor; [apply IH; exact H2|]. constructor. now apply N.leb_le.
Qed.
Definition round_b (e now : N) (s : node) : bool :=
  let b := before_pings now [] s in
  negb (match nst s with NCreated => true | _ => false end) && negb (fl_shut s) && negb (my_id s =? 0) &&
  existsb (fun p => (snd p =? e) && (fst p <=? now)) (pings b) &&
  forallb (fun p => negb (fst p <=? now) || negb (idle_b now (snd p) b)) (pings b) && sorted_b (map fst (pings b)) &&
  negb (e_id (d_ep (es b e)) =? my_id b) && (match parent b with Some p => negb (e_id p =? e_id (d_ep (es b e))) | None => true end) &&
  (d_fault (es b e) <=? x_tol (cf s)).
Lemma round_b_ok e now s : round_b e now s = true -> round e now s /\ d_fault (es (before_pings now [] s) e) <= x_tol (cf s).
Proof.
  unfold round_b. cbv zeta. set (b := before_pings now [] s). rewrite !andb_true_iff, !negb_true_iff.
  intros ((((((((H1 & H2) & H3) & H4) & H5) & H6) & H7) & H8) & H9). split; [|now apply N.leb_le].
  constructor; fold b.
  - intro X. now rewrite X in H1.
  - exact H2.
  - now apply N.eqb_neq.
  - apply existsb_exists in H4 as ([t x] & IN & X). cbn in X. apply andb_true_iff in X as [X Y]. apply N.eqb_eq in X as ->. apply N.leb_le in Y. eauto.
  - intros t x IN L H. rewrite forallb_forall in H5. specialize (H5 _ IN). cbn in H5. apply orb_true_iff in H5 as [X|X]; apply negb_true_iff in X.
    + apply N.leb_gt in X. lia.
    + apply idle_b_ok in H. congruence.
  - now apply sorted_b_ok.
  - split; [now apply N.eqb_neq|]. intros p P. rewrite P in H8. apply negb_true_iff in H8. now apply N.eqb_neq.
Qed.
Fixpoint rounds_b (e : N) (ts : list N) (s : node) : bool :=
  match ts with
  | [] => true
  | t :: r => round_b e t s && match step fuel0 (EProc t []) s with Some s' => rounds_b e r s' | None => false end
  end.
Lemma rounds_b_ok e ts : forall s, rounds_b e ts s = true ->
  exists s', run fuel0 (map (fun t => EProc t []) ts) s = Some s' /\ hush e true (N.of_nat (length ts)) s s'.
Proof.
  induction ts as [|t r IH]; intros s H; cbn [rounds_b] in H.
  - exists s. split; [reflexivity|constructor].
  - apply andb_true_iff in H as [H1 H2]. destruct (step fuel0 (EProc t []) s) as [s1|] eqn:E; [|discriminate].
    destruct (IH s1 H2) as (s' & R & HU). exists s'. split; [cbn [map run]; rewrite E; exact R|].
    replace (N.of_nat (length (t :: r))) with (N.of_nat (length r) + 1) by (cbn [length]; lia).
    apply round_b_ok in H1 as [H1 H3]. apply (hush_round e true fuel0 t _ s s1 s'); auto.
Qed.
(** Four rounds at 109, 118, 127 and 136, with [fault_tolerant = 2]. *)
Example C36_silent_case : exists s s', reachable s /\ In (TAdded 2) (log s) /\ hush 2 true 4 s s' /\ settled s' /\ x_tol (cf s) + 2 <= 4.
Proof.
  observe (fun s => (rounds_b 2 [109;118;127;136] s, log s, x_tol (cf s),
    option_map (fun s' => (flat_map (fun t => match t with TAdded e => [e] | _ => [] end) (log s'), d_ep (es s' 2)))
      (run fuel0 (map (fun t => EProc t []) [109;118;127;136]) s))) (boot 65540 []).
  pose proof (f_equal snd E) as E4. pose proof (f_equal (fun x => snd (fst x)) E) as E3. pose proof (f_equal (fun x => snd (fst (fst x))) E) as E2.
  pose proof (f_equal (fun x => fst (fst (fst x))) E) as E1. cbn [fst snd] in E1, E2, E3, E4. clear E.
  destruct (rounds_b_ok 2 [109;118;127;136] s E1) as (s' & RU & H). rewrite RU in E4. cbn [option_map] in E4. injection E4 as E4 E5.
  exists s, s'. split; [exact R|]. split; [rewrite E2; cbn [In]; tauto|]. split; [exact H|]. split; [|rewrite E3; lia].
  intros e IN. assert (e = 2) as ->.
  { assert (X : In e (flat_map (fun t => match t with TAdded e => [e] | _ => [] end) (log s'))) by (apply in_flat_map; exists (TAdded e); split; [exact IN|now left]).
    rewrite E4 in X. cbn [In] in X. intuition congruence. }
  rewrite E5. unfold good_ep. cbn [e_subs e_id].
  split; [repeat constructor; unfold RouteProof.good; cbn; lia|]. split; [repeat constructor|]. eexists. split; [now left|]. cbn. lia.
Qed.

(** ** C36: answering peers *)
Lemma push_flags c m s x : k_st (cs (fst (push c m s)) x) = k_st (cs s x) /\ k_sa (cs (fst (push c m s)) x) = k_sa (cs s x) /\
  k_sh (cs (fst (push c m s)) x) = k_sh (cs s x).
Proof.
  unfold push. cbv zeta. set (n := x_size (cf s) m). clearbody n. set (s1 := on_c c _ s).
  assert (E1 : k_st (cs s1 x) = k_st (cs s x) /\ k_sa (cs s1 x) = k_sa (cs s x) /\ k_sh (cs s1 x) = k_sh (cs s x)).
  { subst s1. rewrite cs_on_c. destruct (N.eqb_spec x c) as [->|]; auto. }
  destruct E1 as (<- & <- & <-). clearbody s1.
  assert (F : forall t f, cs t = cs s1 -> (forall k, k_st (f k) = k_st k /\ k_sa (f k) = k_sa k /\ k_sh (f k) = k_sh k) ->
     k_st (cs (on_c c f t) x) = k_st (cs s1 x) /\ k_sa (cs (on_c c f t) x) = k_sa (cs s1 x) /\ k_sh (cs (on_c c f t) x) = k_sh (cs s1 x)).
  { intros t f E G. rewrite cs_on_c, E. destruct (N.eqb_spec x c) as [->|]; [apply G|auto]. }
  assert (O : cs (fst (take_orc s1)) = cs s1) by (unfold take_orc; now destruct (orc s1)). destruct (take_orc s1) as [s2 r]. cbn [fst] in O.
  destruct (k_st (cs s1 c)); cbn [fst]; try (apply F; [reflexivity|auto]);
    destruct (k_kind (cs s1 c)); cbn [fst]; try (apply F; [reflexivity|auto]); destruct (r <? 0)%Z; cbn [fst];
    try (apply F; [exact O|auto]); unfold emit; cbn [cs set_log]; rewrite O; auto.
Qed.
Lemma data_conn_same s s' e b : self s' = self s -> es s' = es s ->
  (forall x, k_st (cs s' x) = k_st (cs s x) /\ k_sa (cs s' x) = k_sa (cs s x) /\ k_sh (cs s' x) = k_sh (cs s x)) ->
  data_conn s' e b = data_conn s e b.
Proof.
  intros SE E F. unfold data_conn, ctrl_conn, my_ref. rewrite SE, E. destruct (_ =? _); [reflexivity|].
  assert (U : forall l, find (usable s' (e_ref e)) (sort_conns s' l) = find (usable s (e_ref e)) (sort_conns s l)).
  { intro l. assert (SO : sort_conns s' l = sort_conns s l).
    { unfold sort_conns. induction l as [|x l IH]; [reflexivity|]. cbn [fold_right]. rewrite IH. generalize (fold_right (ins_conn s) [] l) as m.
      induction m as [|y m IHm]; [reflexivity|]. cbn [ins_conn].
      assert (SC : forall z, score s' z = score s z) by (intro z; unfold score; destruct (F z) as (_ & -> & ->); reflexivity).
      rewrite !SC, IHm. reflexivity. }
    rewrite SO. clear SO. induction (sort_conns s l) as [|y m IHm]; [reflexivity|]. cbn [find]. rewrite IHm.
    assert (UY : usable s' (e_ref e) y = usable s (e_ref e) y).
    { unfold usable, my_ref, is_connected. rewrite SE, E. destruct (F y) as (-> & -> & ->). reflexivity. }
    now rewrite UY. }
  rewrite U. destruct (find _ _); [reflexivity|]. destruct b; [|reflexivity]. destruct (d_ctrl _) as [c|]; [|reflexivity].
  unfold is_connected. destruct (F c) as (-> & _). reflexivity.
Qed.
Lemma push_ok_log c m s : (0 <= snd (push c m s))%Z -> log (fst (push c m s)) = TSend c m (x_size (cf s) m) (snd (push c m s)) :: log s.
Proof.
  unfold push. cbv zeta. set (n := x_size (cf s) m). clearbody n. set (s1 := on_c c _ s). assert (E1 : log s1 = log s) by reflexivity. clearbody s1. rewrite <- E1.
  assert (O : log (fst (take_orc s1)) = log s1) by (unfold take_orc; now destruct (orc s1)). destruct (take_orc s1) as [s2 r]. cbn [fst] in O.
  destruct (k_st (cs s1 c)); cbn [fst snd]; try (intro X; exfalso; apply X; reflexivity);
    destruct (k_kind (cs s1 c)); cbn [fst snd]; try (intro X; exfalso; apply X; reflexivity); intro X;
    (destruct (Z.ltb_spec r 0); [lia|]); unfold emit; cbn [log set_log on_c set_cs]; now rewrite O.
Qed.
(** A peer that answered the last ping, with a control and a data connection, loses
    nothing in a round, except when the ping cannot be sent.  (The full statement is
    about any number of rounds, with answers in between.) *)
Theorem C36_answering_kept_partial h e s s' r c d : my_id s <> 0 ->
  d_ping (es s e) = 0 -> ctrl_conn s (d_ep (es s e)) = Some c -> data_conn s (d_ep (es s e)) false = Some d ->
  ping_endpoint h e s = (s', r) -> (0 <= r)%Z ->
  routes s' = routes s /\ parent s' = parent s /\ d_fault (es s' e) = d_fault (es s e) /\
  d_ping (es s' e) <> 0 /\
  exists k q n, log s' = TSend c {| m_head := {| h_ver := ver; h_type := 0%Z; h_ret := 0%Z; h_seq := d_ping (es s' e); h_src := my_id s |};
     m_body := BPing false q |} n k :: log s.
Proof.
  intros MI P C D. assert (SE : self s <> None) by (intro X; apply MI; unfold my_id; now rewrite X).
  unfold ping_endpoint. rewrite P, N.eqb_refl. destruct (self s) as [m|] eqn:SE'; [|now elim SE].
  pose proof MI as MI'. apply N.eqb_neq in MI. rewrite MI, C. pose proof (seq_pos s) as Q.
  assert (E2 : es (fst (alloc_seq s)) = es s /\ cs (fst (alloc_seq s)) = cs s /\ self (fst (alloc_seq s)) = self s /\
     parent (fst (alloc_seq s)) = parent s /\ routes (fst (alloc_seq s)) = routes s /\ log (fst (alloc_seq s)) = log s) by (repeat split).
  destruct (alloc_seq s) as [s2 q]. cbn [fst snd] in *. destruct E2 as (E1 & E2 & E3 & E4 & E5 & E6).
  unfold send_ping, send_on. set (msg := {| m_head := _; m_body := _ |}).
  destruct (_ <? _); [intros [= _ <-] X; exfalso; apply X; reflexivity|].
  pose proof (push_ok_log c msg s2) as LG. pose proof (push_flags c msg s2) as FL.
  assert (K : es (fst (push c msg s2)) = es s2 /\ self (fst (push c msg s2)) = self s2 /\ parent (fst (push c msg s2)) = parent s2 /\
     routes (fst (push c msg s2)) = routes s2) by (repeat split; fr1).
  destruct (push c msg s2) as [s3 z]. cbn [fst snd] in *. destruct K as (K1 & K2 & K3 & K4).
  destruct (Z.ltb_spec z 0) as [Z0|Z0]; [intros [= _ <-]; lia|].
  rewrite K1, E1. assert (D3 : data_conn s3 (d_ep (es s e)) false = Some d).
  { rewrite <- D. apply data_conn_same; [congruence|congruence|]. intro x. destruct (FL x) as (-> & -> & ->). now rewrite E2. }
  rewrite D3. intros [= <- <-] _.
  assert (ES : es (on_e e (set_d_ping q) s3) e = set_d_ping q (es s e)) by (rewrite es_on_e, N.eqb_refl; congruence).
  rewrite ES. cbn [d_fault d_ping set_d_ping]. split; [change (routes s3 = routes s); congruence|]. split; [change (parent s3 = parent s); congruence|].
  split; [reflexivity|]. split; [exact Q|]. exists z, (sec s2 * 1000), (x_size (cf s2) msg).
  change (log (on_e e (set_d_ping q) s3)) with (log s3). rewrite (LG Z0), E6. assert (MY : my_id s2 = my_id s) by (unfold my_id; now rewrite E3, ?E1).
  subst msg. rewrite MY. reflexivity.
Qed.
(** Its answer clears the record. *)
Theorem C36_answer_clears c e h t s : k_bind (cs s c) = Some e -> h_seq h = d_ping (es s e) ->
  let s' := on_recv c {| m_head := h; m_body := BPing true t |} s in
  d_ping (es s' e) = 0 /\ d_fault (es s' e) = 0 /\ routes s' = routes s /\ parent s' = parent s.
Proof.
  intros B Q. cbv zeta. unfold on_recv, dispatch_msg. cbn [m_body m_head]. unfold pong_msg. cbv zeta.
  change (k_bind (cs (emit _ s) c)) with (k_bind (cs s c)). rewrite B.
  change (es (emit _ s) e) with (es s e). rewrite Q, N.eqb_refl.
  change (E_OK <? 0)%Z with false. cbv iota beta. set (t0 := emit _ s). change (k_bind (cs (on_e e (set_d_ping 0) t0) c)) with (k_bind (cs s c)). rewrite B.
  rewrite es_on_c. match goal with |- context [es (emit (TGood e) ?q) e] => change (es (emit (TGood e) q) e) with (es q e) end.
  rewrite es_on_e, N.eqb_refl, es_on_e, N.eqb_refl. auto.
Qed.
Example C36_answering_case : exists s c d s' r, reachable s /\ my_id s <> 0 /\ d_ping (es s 2) = 0 /\
  ctrl_conn s (d_ep (es s 2)) = Some c /\ data_conn s (d_ep (es s 2)) false = Some d /\ ping_endpoint true 2 s = (s', r) /\ (0 <= r)%Z.
Proof.
  observe (fun s => (my_id s, d_ping (es s 2), ctrl_conn s (d_ep (es s 2)), data_conn s (d_ep (es s 2)) false, snd (ping_endpoint true 2 s))) (boot 65540 []).
  injection E as E1 E2 E3 E4 E5. destruct (ping_endpoint true 2 s) as [s' r] eqn:P. cbn [snd] in E5.
  do 5 eexists. split; [exact R|]. rewrite E1, E2, E3, E4. split; [discriminate|]. split; [reflexivity|]. split; [reflexivity|].
  split; [reflexivity|]. split; [exact P|]. rewrite E5. lia.
Qed.
Example C36_clears_case : exists s, reachable s /\ k_bind (cs s 2) = Some 2 /\ d_ping (es s 2) = 4 /\ d_fault (es s 2) = 1.
Proof.
  observe (fun s => (k_bind (cs s 2), d_ping (es s 2), d_fault (es s 2))) (boot 65540 [] ++ [EProc 109 []; EProc 118 []]).
  injection E as E1 E2 E3. exists s. now rewrite E1, E2, E3.
Qed.
Print Assumptions C36_silent_removed_partial.
Print Assumptions C36_answering_kept_partial.
Print Assumptions C36_answer_clears.
