(** Statistics of connections: proofs. *)
From Verif Require Import Base Subnet Route Address NodeTypes NodeConn NodeCore NodeMsg Node
  NodeFrame NodeReset NodeInv NodeKeep NodeSteps NodeReach NodeSpec NodeLog.
Local Open Scope N_scope.
Ltac Zify.zify_post_hook ::= idtac.

Definition acc (s : node) (c : N) : N * N := msgs_accepted c (rev (log s)).
Definition rep (s : node) (c : N) : (N * N) * (N * N) := (msgs_reported c (rev (log s)), msgs_written c (rev (log s))).
Lemma acc_snoc c l t : msgs_accepted c (l ++ [t]) = accepted_step c (msgs_accepted c l) t.
Proof. unfold msgs_accepted. now rewrite fold_left_app. Qed.
Lemma rep_snoc c l t : msgs_reported c (l ++ [t]) = reported_step c (msgs_reported c l) t.
Proof. unfold msgs_reported. now rewrite fold_left_app. Qed.
Lemma wok_snoc c l t : msgs_written c (l ++ [t]) = written_step c (msgs_written c l) t.
Proof. unfold msgs_written. now rewrite fold_left_app. Qed.
(** Trace entries that do not concern the traffic of [c]. *)
Definition apart (c : N) (t : tr) : Prop :=
  match t with TSend x _ _ _ | TWrote x _ _ | TClose x => x <> c | _ => True end.
Lemma acc_apart c l s s' : log s' = l ++ log s -> Forall (apart c) l -> acc s' c = acc s c /\ rep s' c = rep s c.
Proof.
  unfold acc, rep. intros -> F. induction F as [|t l A _ [IH1 IH2]]; [now split|].
  change (rev ((t :: l) ++ log s)) with (rev (l ++ log s) ++ [t]). injection IH2 as IH2 IH3. rewrite acc_snoc, rep_snoc, wok_snoc, IH1, IH2, IH3.
  destruct t; cbn [apart accepted_step reported_step written_step] in *; try (now split); apply N.eqb_neq in A; rewrite A; now split.
Qed.

Definition sockish (k : conn) : Prop := k_kind k = KSock \/ k_kind k = KListen.
Definition base (k : conn) (a : N * N) (r : (N * N) * (N * N)) : Prop :=
  k_st k <> Disconnecting /\ (k_st k = Disconnected -> ~ sockish k) /\
  match k_kind k with
  | KNone => a = (0, 0) /\ r = ((0, 0), (0, 0))
  | KListen => a = (0, 0)
  | KSock => True
  | _ => r = ((0, 0), (0, 0))
  end.
Definition eqn (k : conn) (a : N * N) (r : (N * N) * (N * N)) : Prop :=
  match k_kind k with
  | KSock | KListen => plus2 (k_start k) (fst r) = plus2 (plus2 (k_ok k) (k_fail k)) a /\ k_ok k = snd r
  | KNone => k_start k = plus2 (k_ok k) (k_fail k) /\ k_ok k = (0, 0)
  | _ => k_start k = plus2 (k_ok k) (k_fail k) /\ fst (k_ok k) <= fst a /\ snd (k_ok k) <= snd a
  end.
(** All connections balanced except those of [l], which have no socket. *)
Definition fair (l : list N) (s : node) : Prop := forall x,
  base (cs s x) (acc s x) (rep s x) /\ (In x l -> ~ sockish (cs s x)) /\ (In x l \/ eqn (cs s x) (acc s x) (rep s x)).

(** ** Closing *)
Definition inval (s s' : node) : Prop := exists l, log s' = l ++ log s /\ Forall (fun t => match t with TInvalid _ => True | _ => False end) l.
Lemma inval_refl s s' : log s' = log s -> inval s s'.
Proof. intro E. exists []. split; [exact E|constructor]. Qed.
Lemma inval_trans s1 s2 s3 : inval s1 s2 -> inval s2 s3 -> inval s1 s3.
Proof.
  intros (l1 & E1 & F1) (l2 & E2 & F2). exists (l2 ++ l1). rewrite E2, E1, app_assoc. split; [reflexivity|]. now apply Forall_app.
Qed.
Lemma inval_rm_timer c s : inval s (rm_timer c s).
Proof.
  unfold rm_timer. destruct (in_timer s c); [|now apply inval_refl].
  destruct (is_connected s c); [now apply inval_refl|]. exists [TInvalid c]. split; [reflexivity|now repeat constructor].
Qed.
Lemma inval_set_status c v s : inval s (set_status c v s).
Proof.
  unfold set_status. destruct (cst_eqb _ v); [now apply inval_refl|].
  destruct v; try (now apply inval_refl). eapply inval_trans; [|apply inval_rm_timer]. now apply inval_refl.
Qed.
Lemma inval_on_disconnect c s : inval s (on_disconnect c s).
Proof.
  unfold on_disconnect. destruct (_ && _ && _); [|now apply inval_refl]. cbv zeta. cbn [fl_act set_popr set_nst].
  destruct (fl_act s) eqn:A; [now apply inval_refl|]. unfold fatal_shutdown, shutdown. cbn [fl_shut set_popr set_nst].
  destruct (fl_shut s); [now apply inval_refl|]. cbn [fl_act set_fl_shut set_popr set_nst]. rewrite A. now apply inval_refl.
Qed.
Lemma inval_acc s s' c : inval s s' -> acc s' c = acc s c /\ rep s' c = rep s c.
Proof. intros (l & E & F). apply (acc_apart c l); [exact E|]. eapply Forall_impl; [|exact F]. now intros []. Qed.
Lemma acc_same s s' c : log s' = log s -> acc s' c = acc s c /\ rep s' c = rep s c.
Proof. intro E. unfold acc, rep. now rewrite E. Qed.
Lemma disconnect_acc c s x :
  (k_st (cs s c) <> Disconnected -> k_st (cs s c) <> Disconnecting -> k_kind (cs s c) <> KNone -> x = c ->
     acc (disconnect c s) x = (0, 0) /\ rep (disconnect c s) x = ((0, 0), (0, 0))) /\
  (k_kind (cs s c) = KNone \/ k_st (cs s c) = Disconnected \/ x <> c ->
     acc (disconnect c s) x = acc s x /\ rep (disconnect c s) x = rep s x).
Proof.
  unfold disconnect. destruct (k_st (cs s c)) eqn:ST; try (split; [congruence|now split]).
  all: cbv zeta; pose proof (inval_acc _ _ x (inval_set_status c Disconnecting s)) as [A1 R1];
    pose proof (cs_set_status c c Disconnecting s) as K1; rewrite N.eqb_refl in K1;
    set (s1 := set_status c Disconnecting s) in *; clearbody s1; rewrite K1; cbn [k_kind set_k_st];
    set (s2 := match k_kind (cs s c) with KNone => s1 | _ => emit (TClose c) s1 end);
    pose proof (inval_acc _ _ x (inval_on_disconnect c s2)) as [A3 R3];
    set (s3 := on_disconnect c s2) in *; clearbody s3;
    set (s4 := if k_proc (cs s3 c) then on_c c (set_k_proc false) (rm_proc (k_addr (cs s3 c)) s3) else s3);
    assert (L4 : log s4 = log s3) by (subst s4; destruct (k_proc _); reflexivity); clearbody s4;
    pose proof (inval_acc _ _ x (inval_set_status c Disconnected (on_c c (set_k_kind KNone) s4))) as [A5 R5];
    pose proof (acc_same s3 (on_c c (set_k_kind KNone) s4) x L4) as [A4 R4];
    rewrite A5, A4, A3, R5, R4, R3.
  all: assert (Q : forall l, x = c -> msgs_accepted x (l ++ [TClose c]) = (0, 0) /\ (msgs_reported x (l ++ [TClose c]), msgs_written x (l ++ [TClose c])) = ((0, 0), (0, 0)))
    by (intros l ->; rewrite acc_snoc, rep_snoc, wok_snoc; cbn; rewrite N.eqb_refl; now split).
  all: assert (Q' : x <> c -> acc (emit (TClose c) s1) x = acc s1 x /\ rep (emit (TClose c) s1) x = rep s1 x)
    by (intro X; apply (acc_apart x [TClose c]); [reflexivity|repeat constructor; cbn; congruence]).
  all: subst s2; destruct (k_kind (cs s c)); split; try congruence; try (intros; apply Q; assumption);
    intros [X|[X|X]]; try discriminate; try (rewrite ?(proj1 (Q' X)), ?(proj2 (Q' X))); now rewrite ?A1, ?R1.
Qed.
Lemma fair_close c l s : fair l s -> fair (c :: l) (conn_close c s).
Proof.
  intros F x. unfold conn_close. pose proof (inval_acc _ _ x (inval_rm_timer c s)) as [A R].
  pose proof (disconnect_acc c (rm_timer c s) x) as [D1 D2]. rewrite (keeps (f := cs) (g := rm_timer c)) in D1, D2.
  rewrite cs_disconnect, (keeps (f := cs) (g := rm_timer c)). rewrite A, R in D2.
  destruct (F x) as (B & NS & E). destruct (N.eqb_spec x c) as [->|D].
  - destruct B as (B1 & B2 & B3). unfold closed. destruct (k_st (cs s c)) eqn:ST; try contradiction.
    { destruct D2 as [-> ->]; [auto|]. split; [|split; [now intros _; apply B2|left; now left]].
      split; [congruence|]. split; [now rewrite ST|exact B3]. }
    all: split; [|split; [intros _ [X|X]; discriminate|left; now left]]; split; [discriminate|];
      split; [intros _ [X|X]; discriminate|]; cbn [k_kind set_k_st set_k_kind set_k_proc];
      destruct (k_kind (cs s c)); try (apply D1; congruence);
      rewrite (proj1 (D2 (or_introl eq_refl))), (proj2 (D2 (or_introl eq_refl))); assumption.
  - destruct D2 as [-> ->]; [auto|]. split; [exact B|]. split; [intros [X|X]; [congruence|auto]|]. destruct E as [E|E]; [left; now right|now right].
Qed.
Lemma fair_fin c l s : fair (c :: l) s -> fair l (conn_fin c s).
Proof.
  intros F x. assert (L : log (conn_fin c s) = log s) by (unfold conn_fin, gc_conn; destruct (_ || _); reflexivity).
  destruct (acc_same _ _ x L) as [-> ->]. rewrite cs_conn_fin. destruct (F x) as (B & NS & E).
  destruct (N.eqb_spec x c) as [->|D].
  - split; [exact B|]. split; [intros _; apply NS; now left|]. right.
    assert (Q : ~ sockish (cs s c)) by (apply NS; now left). unfold sockish in Q. unfold eqn, finished. cbn.
    destruct (k_kind (cs s c)); (try (exfalso; now intuition)); repeat split; try reflexivity; apply N.le_0_l.
  - split; [exact B|]. split; [intro X; apply NS; now right|]. destruct E as [[E|E]|E]; [congruence|now left|now right].
Qed.
Lemma fair_same l s s' : log s' = log s ->
  (forall x, k_st (cs s' x) = k_st (cs s x) /\ k_kind (cs s' x) = k_kind (cs s x) /\ stats (cs s' x) = stats (cs s x)) ->
  fair l s -> fair l s'.
Proof.
  intros L C F x. destruct (acc_same _ _ x L) as [-> ->]. destruct (C x) as (C1 & C2 & C3). unfold stats in C3. injection C3 as C3 C4 C5.
  specialize (F x). unfold base, eqn, sockish in *. now rewrite C1, C2, C3, C4, C5.
Qed.
Lemma fair_unbind l c s : fair l s -> fair l (on_c c (set_k_bind None) s).
Proof. apply fair_same; [reflexivity|]. intro x. rewrite cs_on_c. destruct (N.eqb_spec x c) as [->|]; now repeat split. Qed.
Lemma fair_cs l s s' : log s' = log s -> cs s' = cs s -> fair l s -> fair l s'.
Proof. intros L C. apply fair_same; [exact L|]. intro x. now rewrite C. Qed.
Lemma fair_reset_in c l s : fair l s -> fair l (conn_reset_in c s).
Proof. intro F. unfold conn_reset_in. now apply fair_fin, fair_unbind, fair_close. Qed.
Lemma fair_resets_in r l s : fair l s -> fair l (resets_in r s).
Proof.
  revert s. induction r as [|c r IH]; intros s F; [exact F|].
  change (resets_in (c :: r) s) with (resets_in r (conn_reset_in c s)). now apply IH, fair_reset_in.
Qed.
Lemma fair_ep_reset b g e l s : fair l s -> fair l (ep_reset b g e s).
Proof.
  intro F. rewrite ep_reset_eq. cbv zeta.
  set (s1 := match d_ctrl (es s e) with Some c => _ | None => s end).
  assert (H1 : fair l s1).
  { unfold s1. destruct (d_ctrl (es s e)); [|exact F]. apply (fair_unbind l n) in F.
    destruct (opt_eqb _ _); [exact F|now apply fair_reset_in]. }
  clearbody s1. clear F s. apply (fair_resets_in (d_data (es s1 e))) in H1.
  set (s2 := resets_in _ s1) in *. clearbody s2. clear s1. revert H1.
  apply fair_cs; cbn [log cs on_e set_es].
  - destruct g; rewrite ?(keeps (f := log) (g := gc_ep _)), ?(keeps (f := log) (g := clear_ping _)); reflexivity.
  - destruct g; rewrite ?(keeps (f := cs) (g := gc_ep _)), ?(keeps (f := cs) (g := clear_ping _)); reflexivity.
Qed.
Lemma fair_conn_reset c l s : fair l s -> fair l (conn_reset c s).
Proof.
  intro F. unfold conn_reset. cbv zeta. apply fair_fin. apply (fair_close c) in F.
  set (s1 := conn_close c s) in *. clearbody s1. clear s.
  destruct (k_bind (cs s1 c)) as [e|]; [|exact F].
  destruct (opt_eqb _ _); [now apply fair_ep_reset|].
  destruct (memb _ _); [|exact F].
  set (s2 := on_e e _ _). assert (H2 : fair (c :: l) s2).
  { apply (fair_unbind _ c) in F. revert F. now apply fair_cs. }
  clearbody s2. destruct (d_data (es s2 e)); [|exact H2]. now apply fair_ep_reset.
Qed.

(** ** The other steps *)
Lemma fair_log tl s s' : log s' = tl ++ log s -> (forall c, Forall (apart c) tl) -> cs s' = cs s -> fair [] s -> fair [] s'.
Proof. intros L A C F x. destruct (acc_apart x tl s s' L (A x)) as [-> ->]. rewrite C. apply F. Qed.
Lemma fair_conn l c s s' : log s' = log s -> (forall x, x <> c -> cs s' x = cs s x) ->
  (base (cs s c) (acc s c) (rep s c) -> base (cs s' c) (acc s c) (rep s c)) ->
  (eqn (cs s c) (acc s c) (rep s c) -> base (cs s c) (acc s c) (rep s c) -> eqn (cs s' c) (acc s c) (rep s c)) ->
  l = [] -> fair l s -> fair l s'.
Proof.
  intros L C B E -> F x. destruct (acc_same _ _ x L) as [-> ->]. destruct (F x) as (F1 & F2 & F3).
  destruct (N.eq_dec x c) as [->|D]; [|rewrite (C x D); now split].
  split; [auto|]. split; [contradiction|]. right. apply E; trivial. destruct F3; [contradiction|assumption].
Qed.

Lemma fair_set_status c v s : v <> Disconnecting -> v <> Disconnected -> fair [] s -> fair [] (set_status c v s).
Proof.
  intros V1 V2 F x. destruct (inval_acc _ _ x (inval_set_status c v s)) as [-> ->]. rewrite cs_set_status.
  destruct (F x) as (F1 & F2 & F3). destruct (N.eqb_spec x c) as [->|D]; [|now split].
  split; [|split; [contradiction|right; destruct F3; [contradiction|assumption]]].
  destruct F1 as (B1 & B2 & B3). split; [exact V1|]. split; [intro; contradiction|exact B3].
Qed.
(** One connection changes its counters, the trace grows by entries about it. *)
Lemma fair_one c k tl s s' : log s' = tl ++ log s -> (forall x, x <> c -> Forall (apart x) tl) ->
  (forall x, cs s' x = if x =? c then k else cs s x) ->
  (base (cs s c) (acc s c) (rep s c) -> eqn (cs s c) (acc s c) (rep s c) -> base k (acc s' c) (rep s' c) /\ eqn k (acc s' c) (rep s' c)) ->
  fair [] s -> fair [] s'.
Proof.
  intros L A C K F x. rewrite C. destruct (F x) as (F1 & F2 & F3). destruct F3 as [[]|F3]. destruct (N.eqb_spec x c) as [->|D].
  - destruct K as [K1 K2]; trivial. split; [exact K1|]. split; [contradiction|now right].
  - destruct (acc_apart x tl s s' L (A x D)) as [-> ->]. split; [exact F1|]. split; [contradiction|now right].
Qed.
Lemma pair_eq (a b c d : N) : a = c -> b = d -> (a, b) = (c, d). Proof. now intros -> ->. Qed.
Ltac pairs := unfold plus2, bump in *; repeat match goal with H : _ /\ _ |- _ => destruct H end; repeat match goal with |- _ /\ _ => split end;
  repeat match goal with p : ((N * N) * (N * N))%type |- _ => destruct p end; cbn [fst snd] in *; repeat match goal with p : (N * N)%type |- _ => destruct p end; cbn [fst snd] in *;
  repeat match goal with H : (_, _) = (_, _) |- _ => injection H as ? ? end; try apply pair_eq; try lia.
Lemma fair_push c m s : fair [] s -> fair [] (fst (push c m s)).
Proof.
  intro F. unfold push. cbv zeta. set (n := x_size (cf s) m). clearbody n.
  set (s1 := on_c c _ s).
  assert (K1 : cs s1 c = set_k_start (bump (k_start (cs s c)) n) (cs s c)) by (unfold s1; rewrite cs_on_c, N.eqb_refl; reflexivity).
  assert (C1 : forall x, cs s1 x = if x =? c then set_k_start (bump (k_start (cs s c)) n) (cs s c) else cs s x) by reflexivity.
  assert (L1 : log s1 = log s) by reflexivity.
  assert (NF : fair [] (on_c c (fun k => set_k_fail (bump (k_fail k) n) k) s1)).
  { apply (fair_one c (set_k_fail (bump (k_fail (cs s c)) n) (set_k_start (bump (k_start (cs s c)) n) (cs s c))) [] s); trivial.
    - intro x. rewrite cs_on_c, K1, C1. destruct (N.eqb_spec x c) as [->|]; reflexivity.
    - intros B E. destruct (acc_same s (on_c c (fun k => set_k_fail (bump (k_fail k) n) k) s1) c) as [-> ->]; [reflexivity|].
      split; [exact B|]. unfold eqn in *. cbn [k_kind k_start k_ok k_fail set_k_fail set_k_start].
      revert E. generalize (k_start (cs s c)) (k_ok (cs s c)) (k_fail (cs s c)) (acc s c) (rep s c).
      intros a b d f g E. destruct (k_kind (cs s c)); pairs. }
  assert (ST : k_st (cs s1 c) = k_st (cs s c)) by now rewrite K1.
  assert (KD : k_kind (cs s1 c) = k_kind (cs s c)) by now rewrite K1.
  pose proof (keeps2 (f := log) (h := take_orc) s1) as TL. pose proof (keeps2 (f := cs) (h := take_orc) s1) as TC.
  assert (W : k_kind (cs s c) = KSock \/ k_kind (cs s c) = KSend ->
    fair [] (fst (let (s, r) := take_orc s1 in (if (r <? 0)%Z then on_c c (fun k => set_k_fail (bump (k_fail k) n) k) (emit (TSend c m n r) s)
       else match k_kind (cs s1 c) with KSend => on_c c (fun k => set_k_ok (bump (k_ok k) n) k) (emit (TSend c m n r) s) | _ => emit (TSend c m n r) s end, r)))).
  { intro KK. destruct (take_orc s1) as [s2 r]. cbn [fst] in *.
    assert (AR : acc (emit (TSend c m n r) s2) c = (if (0 <=? r)%Z then plus2 (acc s c) (1, n) else acc s c) /\
                 rep (emit (TSend c m n r) s2) c = rep s c).
    { unfold acc, rep. cbn [log emit set_log]. rewrite TL, L1. cbn [rev]. rewrite acc_snoc, rep_snoc, wok_snoc. cbn [accepted_step reported_step written_step].
      rewrite N.eqb_refl. now split. }
    assert (C2 : forall x, cs (emit (TSend c m n r) s2) x = if x =? c then set_k_start (bump (k_start (cs s c)) n) (cs s c) else cs s x).
    { intro x. cbn [cs emit set_log]. rewrite TC. apply C1. }
    assert (L2 : log (emit (TSend c m n r) s2) = [TSend c m n r] ++ log s) by (cbn; now rewrite TL).
    set (s3 := emit (TSend c m n r) s2) in *. clearbody s3. clear TL TC s2.
    assert (AP : forall x, x <> c -> Forall (apart x) [TSend c m n r]) by (intros x X; repeat constructor; cbn; congruence).
    rewrite KD. destruct (Z.ltb_spec r 0) as [Z|Z].
    - apply (fair_one c (set_k_fail (bump (k_fail (cs s c)) n) (set_k_start (bump (k_start (cs s c)) n) (cs s c))) [TSend c m n r] s); trivial.
      + intro x. rewrite cs_on_c, !C2, N.eqb_refl. destruct (N.eqb_spec x c) as [->|]; reflexivity.
      + change (acc (on_c c (fun k => set_k_fail (bump (k_fail k) n) k) s3) c) with (acc s3 c).
        change (rep (on_c c (fun k => set_k_fail (bump (k_fail k) n) k) s3) c) with (rep s3 c).
        destruct AR as [-> ->]. destruct (Z.leb_spec 0 r); [lia|]. intros B E. split; [exact B|].
        unfold eqn in *. cbn [k_kind k_start k_ok k_fail set_k_fail set_k_start].
        revert E. generalize (k_start (cs s c)) (k_ok (cs s c)) (k_fail (cs s c)) (acc s c) (rep s c).
        intros a b d f g E. destruct (k_kind (cs s c)); pairs.
    - destruct KK as [KK|KK]; rewrite KK.
      + apply (fair_one c (set_k_start (bump (k_start (cs s c)) n) (cs s c)) [TSend c m n r] s); trivial.
        destruct AR as [-> ->]. destruct (Z.leb_spec 0 r); [|lia]. intros B E. unfold base, eqn, sockish in *. cbn [k_kind k_st k_start k_ok k_fail set_k_start] in *.
        rewrite KK in *. split; [exact B|].
        revert E. generalize (k_start (cs s c)) (k_ok (cs s c)) (k_fail (cs s c)) (acc s c) (rep s c).
        intros a b d f g E. pairs.
      + apply (fair_one c (set_k_ok (bump (k_ok (cs s c)) n) (set_k_start (bump (k_start (cs s c)) n) (cs s c))) [TSend c m n r] s); trivial.
        * intro x. rewrite cs_on_c, !C2, N.eqb_refl. destruct (N.eqb_spec x c) as [->|]; reflexivity.
        * change (acc (on_c c (fun k => set_k_ok (bump (k_ok k) n) k) s3) c) with (acc s3 c).
          change (rep (on_c c (fun k => set_k_ok (bump (k_ok k) n) k) s3) c) with (rep s3 c).
          destruct AR as [-> ->]. destruct (Z.leb_spec 0 r); [|lia]. intros B E. unfold base, eqn, sockish in *. cbn [k_kind k_st k_start k_ok k_fail set_k_start set_k_ok] in *.
          rewrite KK in *. split; [exact B|].
          revert E. generalize (k_start (cs s c)) (k_ok (cs s c)) (k_fail (cs s c)) (acc s c) (rep s c).
          intros a b d f g E. pairs. }
  destruct (k_st (cs s1 c)); try exact NF.
  all: destruct (k_kind (cs s1 c)) eqn:K; try exact NF; rewrite <- KD in W.
  all: try (specialize (W (or_introl eq_refl))); try (specialize (W (or_intror eq_refl))); destruct (take_orc s1) as [s2 r]; exact W.
Qed.
Lemma fair_written c z n s : fair [] s -> fair [] (written c z n s).
Proof.
  intro F. unfold written, linked. destruct (k_kind (cs s c)) eqn:K; trivial.
  all: cbv zeta;
    assert (AR : acc (emit (TWrote c z n) s) c = acc s c /\ rep (emit (TWrote c z n) s) c = (plus2 (fst (rep s c)) (1, n), if (z =? 0)%Z then plus2 (snd (rep s c)) (1, n) else snd (rep s c)))
      by (unfold acc, rep; cbn [log emit set_log rev fst snd]; rewrite acc_snoc, rep_snoc, wok_snoc; cbn [accepted_step reported_step written_step]; rewrite N.eqb_refl; now split);
    assert (AP : forall x, x <> c -> Forall (apart x) [TWrote c z n]) by (intros x X; repeat constructor; cbn; congruence);
    destruct (z =? 0)%Z.
  all: match goal with |- fair _ (on_c _ ?f _) => apply (fair_one c (f (cs s c)) [TWrote c z n] s) end; trivial.
  all: lazymatch goal with
    | |- forall x, cs _ x = _ => intro x; rewrite cs_on_c; cbn [cs emit set_log]; reflexivity
    | |- _ => intros B E;
      match goal with |- context [on_c ?y ?f ?s1] => change (acc (on_c y f s1) y) with (acc s1 y); change (rep (on_c y f s1) y) with (rep s1 y) end;
      destruct AR as [-> ->]; unfold base, eqn, sockish in *; cbn [k_kind k_st k_start k_ok k_fail set_k_fail set_k_ok] in *;
      rewrite K in *; split; [exact B|];
      revert E; generalize (k_start (cs s c)) (k_ok (cs s c)) (k_fail (cs s c)) (acc s c) (rep s c);
      intros a b d f g E; pairs
    end.
Qed.
Lemma conn_base k : conn_ok k -> k_st k <> Disconnecting /\ (k_st k = Disconnected -> ~ sockish k).
Proof. intros (A & _ & _ & B). split; [exact A|]. intros X [Y|Y]; now apply B in X as [X1 X2]. Qed.
Lemma micro_fair a s s' : Inv s -> micro a s s' -> fair [] s -> fair [] s'.
Proof.
  intros I M. destruct M as [s s' C|v s V|s N|z s|t s T|s|c f s Cb Co Cs Ck Cn|l s|c m s|c z n s|c s|g e s|e c b s|e f s|i subs p h s|x s _ N A I0
    |i ex s|p s P|i ex t e s R C|s|l s|l s|l s|c s|c s|e s|x s|v s|e s|e s];
    try (now apply fair_cs); try (apply fair_cs; now (reflexivity || fr1)).
  - destruct C as (E1 & E2 & E3 & E4 & E5 & E6 & E7 & E8 & E9 & E10 & E11 & E12 & E13 & E14 & E15 & E16 & E17 & E18).
    now apply fair_cs.
  - unfold on_actived. cbn [fl_act set_nst]. destruct (fl_act s); [now apply fair_cs|].
    now apply (fair_log [TUp]); [|now repeat constructor|].
  - unfold shutdown. destruct (fl_shut s); [trivial|]. cbn [fl_act set_fl_shut]. destruct (fl_act s); [|now apply fair_cs].
    now apply (fair_log [TDown z]); [|now repeat constructor|].
  - apply (fair_log [t]); trivial. intro c. constructor; [|constructor]. destruct t; try exact Logic.I; contradiction.
  - intro F. assert (L : log (fst (conn_create s)) = log s) by fr1.
    apply (fair_one (nextc s) no_conn [] s); trivial.
    + intro x. unfold conn_create. cbn [fst]. rewrite (keeps (f := cs) (g := add_timer _)). reflexivity.
    + intros B E. destruct (acc_same _ _ (nextc s) L) as [-> ->].
      destruct (I_freshc s I (nextc s)) as [_ K]; [lia|]. unfold base in B. rewrite K in B. destruct B as (_ & _ & -> & ->).
      repeat split; try discriminate. now intros _ [X|X].
  - intro F. apply (fair_one c (f (cs s c)) [] s); trivial.
    intros B E. change (acc (on_c c f s) c) with (acc s c). change (rep (on_c c f s) c) with (rep s c).
    destruct (conn_base _ Co) as [O1 O2]. unfold stats in Cs. injection Cs as S1 S2 S3. unfold base, eqn in *. rewrite S1, S2, S3.
    destruct (k_kind (cs s c)) eqn:K.
    2-5: rewrite Ck by discriminate; (split; [|exact E]); (split; [exact O1|]); (split; [exact O2|]); apply B.
    destruct B as (_ & _ & -> & ->). destruct E as [E E']. rewrite E, E'.
    destruct (k_kind (f (cs s c))); repeat split; trivial; cbn; try lia; generalize (k_ok (cs s c)) (k_fail (cs s c)); intros a0 b0; pairs.
  - apply fair_push.
  - apply fair_written.
  - apply fair_conn_reset.
  - apply fair_ep_reset.
  - unfold add_connection. destruct (k_bind (cs s c)); [trivial|]. cbn [fst]. cbv zeta. intro F.
    set (s1 := on_c c _ _). assert (F1 : fair [] s1).
    { revert F. apply fair_same; [subst s1; destruct (_ || _); reflexivity|]. intro x. subst s1. rewrite cs_on_c.
      destruct (_ || _); rewrite !cs_on_e; destruct (N.eqb_spec x c) as [->|]; now repeat split. }
    clearbody s1. destruct (k_st (cs s1 c)); try exact F1. now apply fair_set_status.
  - unfold add_endpoint. destruct (fl_reset s); [trivial|]. destruct (_ && _).
    + destruct (parent s); [trivial|]. cbv zeta. cbn [fst]. set (s2 := add_ping x (set_parent (Some x) s)).
      assert (Q : log s2 = log s /\ cs s2 = cs s) by (subst s2; split; fr1). clearbody s2. destruct Q as (Q1 & Q2).
      destruct (_ && _); [unfold on_actived; cbn [fl_act set_nst]; destruct (fl_act s2)|].
      * apply (fair_log [TAdded (e_ref x)]); [cbn; now rewrite Q1|now repeat constructor|exact Q2].
      * apply (fair_log [TAdded (e_ref x); TUp]); [cbn; now rewrite Q1|now repeat constructor|exact Q2].
      * apply (fair_log [TAdded (e_ref x)]); [cbn; now rewrite Q1|now repeat constructor|exact Q2].
    + destruct (_ && _); [trivial|]. destruct (insert_child _ _) as [[] t]; [|trivial]. cbn [fst].
      apply (fair_log [TAdded (e_ref x)]); [cbn; fr1|now repeat constructor|fr1].
  - unfold remove_endpoint. destruct (is_parent s i).
    + destruct (parent s) as [p|] eqn:P; [|trivial]. destruct (match ex with Some _ => _ | None => _ end); [trivial|]. cbv zeta. cbn [fst].
      cbn [fl_act emit set_log set_popr set_nst set_parent]; unfold fatal_shutdown, shutdown;
        cbn [fl_shut emit set_log set_popr set_nst set_parent set_fl_shut fl_act].
      destruct (fl_act s) eqn:A; [|destruct (fl_shut s)]; apply (fair_log [TRemoved (e_ref p)]); trivial; now repeat constructor.
    + destruct (_ =? _); [trivial|]. destruct (remove_child _ _ _) as [[] t] eqn:R; [|trivial].
      destruct (child_at _ _) eqn:C; [|trivial]. cbn [fst]. apply (fair_log [TRemoved (e_ref e)]); trivial. now repeat constructor.
  - apply (fair_log [TRemoved (e_ref p)]); trivial. now repeat constructor.
  - apply (fair_log [TRemoved (e_ref e)]); trivial. now repeat constructor.
  - unfold purge. intro F. assert (F1 : fair [] (set_routes [] s)) by (revert F; now apply fair_cs). revert F1.
    generalize (set_routes [] s). induction (map _ (routes s)) as [|e l IH]; intros s0 F0; [exact F0|].
    cbn [fold_left]. apply IH. revert F0. apply (fair_log [TRemoved e]); trivial. now repeat constructor.
  - apply (fair_log [TFault e (e_id (d_ep (es s e))) (x_tol (cf s))]); trivial. intro. constructor; [exact Logic.I|constructor].
  - apply (fair_log [TGood e]); trivial. intro. constructor; [exact Logic.I|constructor].
Qed.
Lemma estep_fair s s' : Inv s -> estep true s s' -> fair [] s -> fair [] s'.
Proof.
  intros I E. destruct E as [v s _|a s s' M|s P R PI C PE LP|x s N|e s N A]; try (now apply fair_cs).
  - eapply micro_fair; eauto.
  - apply (fair_log [TReset]); trivial. now repeat constructor.
Qed.
Theorem reachable_fair s : reachable s -> fair [] s.
Proof.
  apply reachable_ind; [|apply estep_fair]. intro x. split; [|split; [contradiction|now right]].
  repeat split; try discriminate. now intros _ [X|X].
Qed.
