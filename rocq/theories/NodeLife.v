(** The life of a connection: reported as new, used, closed, in this order. *)
From Verif Require Import Base Subnet Route Address NodeTypes NodeConn NodeCore NodeMsg Node
  NodeFrame NodeReset NodeInv NodeKeep NodeSteps NodeCtx NodeReach NodeSpec NodeLog NodeTrace NodeHandle LifeSpec.
Local Open Scope N_scope.
Ltac Zify.zify_post_hook ::= idtac.

(** ** The automaton *)
Inductive stage := Fresh | Opened | Gone.
Inductive role := Free | Born | Used | Shut.
Definition role_of (c : N) (t : tr) : role :=
  match t with
  | TNew x => if x =? c then Born else Free
  | TClose x => if x =? c then Shut else Free
  | TSend x _ _ _ | TWrote x _ _ | TReg x _
  | TRecv _ (Some x) _ | TAnswer _ (Some x) _ | TCmd (Some x) _ _ | TCmdRsp (Some x) _ _ _ => if x =? c then Used else Free
  | _ => Free
  end.
Definition nxt (c : N) (o : option stage) (t : tr) : option stage :=
  match o with
  | None => None
  | Some p => match role_of c t, p with
              | Free, _ => Some p
              | Born, Fresh => Some Opened
              | Used, Opened => Some Opened
              | Shut, Opened => Some Gone
              | _, _ => None
              end
  end.
Definition goes (c : N) (p : stage) (l : list tr) (q : stage) : Prop := fold_left (nxt c) (rev l) (Some p) = Some q.
Lemma none_fold c l : fold_left (nxt c) l None = None.
Proof. induction l as [|t l IH]; [reflexivity|exact IH]. Qed.
Lemma goes_app c p q r l1 l2 : goes c p l1 q -> goes c q l2 r -> goes c p (l2 ++ l1) r.
Proof. unfold goes. intros A B. now rewrite rev_app_distr, fold_left_app, A. Qed.
Definition quiet (t : tr) : Prop :=
  match t with
  | TNew _ | TClose _ | TSend _ _ _ _ | TWrote _ _ _ | TReg _ _
  | TRecv _ (Some _) _ | TAnswer _ (Some _) _ | TCmd (Some _) _ _ | TCmdRsp (Some _) _ _ _ => False
  | _ => True
  end.
Lemma quiet_free c t : quiet t -> role_of c t = Free.
Proof.
  destruct t as [c1 m n r|e o m|e o m|o f a|o f a q| | | | | | | | | | | | | | | | | |]; cbn; trivial; try contradiction.
  all: destruct o; [contradiction|reflexivity].
Qed.
Lemma goes_quiet c p l : Forall quiet l -> goes c p l p.
Proof.
  unfold goes. intro F. apply Forall_rev in F. revert F. generalize (rev l). clear l. intros l F. induction F as [|t l Q F IH]; [reflexivity|]. cbn [fold_left]. unfold nxt at 2.
  now rewrite (quiet_free c t Q).
Qed.
Lemma gone_fold c p l q : fold_left (nxt c) l (Some Gone) = Some q -> q = Gone /\ fold_left (nxt c) l (Some p) = Some p.
Proof.
  induction l as [|t l IH]; cbn [fold_left]; [intros [= <-]; split; reflexivity|]. unfold nxt at 2 4.
  destruct (role_of c t); try (rewrite none_fold; discriminate). exact IH.
Qed.
Definition below (q p : stage) : Prop := q = p \/ (q = Fresh /\ p = Gone).
Definition ph (s : node) (c : N) : stage :=
  match k_kind (cs s c) with
  | KNone => if memb c (pend s) || memb c (lpend s) || (nextc s <=? c) then Fresh else Gone
  | _ => Opened
  end.
(** What holds of the pending operations. *)
Record W (s : node) : Prop := {
  W_kind : forall c, k_kind (cs s c) <> KNone -> c < nextc s /\ ~ In c (pend s) /\ ~ In c (lpend s);
  W_pend : forall c, In c (pend s) -> c < nextc s /\ ~ In c (lpend s);
  W_lpend : forall c, In c (lpend s) -> c < nextc s;
  W_nd : NoDup (pend s); W_lnd : NoDup (lpend s) }.
Record kz' (s s' : node) : Prop := {
  Z_w : W s'; Z_log : exists l, log s' = l ++ log s /\ forall c, exists q, goes c (ph s c) l q /\ below q (ph s' c) }.
Definition kz (s s' : node) : Prop := W s -> kz' s s'.
Lemma kz_refl s : kz s s.
Proof. intro H. constructor; trivial. exists []. split; [reflexivity|]. intro c. exists (ph s c). split; [reflexivity|now left]. Qed.
Lemma kz_trans s1 s2 s3 : kz s1 s2 -> kz s2 s3 -> kz s1 s3.
Proof.
  intros A B H. destruct (A H) as [W2 (l1 & E1 & G1)]. destruct (B W2) as [W3 (l2 & E2 & G2)]. constructor; trivial.
  exists (l2 ++ l1). split; [now rewrite E2, E1, app_assoc|]. intro c. destruct (G1 c) as (q1 & X1 & L1). destruct (G2 c) as (q2 & X2 & L2).
  destruct L1 as [->|[-> P]]; [exists q2; split; [eapply goes_app; eauto|exact L2]|].
  rewrite P in X2. apply (gone_fold c Fresh) in X2. destruct X2 as [-> X2]. exists Fresh. split; [eapply goes_app; [exact X1|exact X2]|].
  right. split; [reflexivity|]. destruct L2 as [L2|[L2 _]]; [now rewrite <- L2|discriminate].
Qed.
Lemma ph_eq s s' c : nextc s' = nextc s -> pend s' = pend s -> lpend s' = lpend s -> k_kind (cs s' c) = k_kind (cs s c) -> ph s' c = ph s c.
Proof. intros A B C D. unfold ph. now rewrite A, B, C, D. Qed.
Lemma W_eq s s' : nextc s' = nextc s -> pend s' = pend s -> lpend s' = lpend s -> (forall c, k_kind (cs s' c) = k_kind (cs s c)) -> W s -> W s'.
Proof.
  intros A B C D [W1 W2 W3 W4 W5]. constructor; rewrite ?A, ?B, ?C; trivial; intro c; rewrite ?D; auto.
Qed.
Lemma kz_quiet s s' : nextc s' = nextc s -> pend s' = pend s -> lpend s' = lpend s -> (forall c, k_kind (cs s' c) = k_kind (cs s c)) ->
  adds quiet s s' -> kz s s'.
Proof.
  intros A B C D (l & E & F) H. constructor; [eapply W_eq; eauto|]. exists l. split; [exact E|]. intro c. exists (ph s c).
  split; [now apply goes_quiet|]. left. symmetry. now apply ph_eq.
Qed.
Lemma kz_intro s s' : nextc s' = nextc s -> pend s' = pend s -> lpend s' = lpend s -> cs s' = cs s -> log s' = log s -> kz s s'.
Proof. intros A B C D E. apply kz_quiet; trivial; [now rewrite D|now apply adds_same]. Qed.
Lemma kz_emit t s : quiet t -> kz s (emit t s).
Proof. intro. apply kz_quiet; trivial. now apply adds_emit. Qed.
Lemma kz_on_c c f s : (forall k, k_kind (f k) = k_kind k) -> kz s (on_c c f s).
Proof. intro F. apply kz_quiet; trivial; [|now apply adds_same]. intro x. rewrite cs_on_c. destruct (N.eqb_spec x c) as [->|]; [apply F|reflexivity]. Qed.
Lemma kz_on_e e f s : kz s (on_e e f s). Proof. now apply kz_intro. Qed.
Lemma kz_set_es v s : kz s (set_es v s). Proof. now apply kz_intro. Qed.
Lemma kz_set_nexte v s : kz s (set_nexte v s). Proof. now apply kz_intro. Qed.
Lemma kz_set_cf v s : kz s (set_cf v s). Proof. now apply kz_intro. Qed.
Lemma kz_set_self v s : kz s (set_self v s). Proof. now apply kz_intro. Qed.
Lemma NoDup_rm c l : NoDup l -> NoDup (rm c l). Proof. apply NoDup_filter. Qed.
Lemma NoDup_app_snoc (c : N) l : ~ In c l -> NoDup l -> NoDup (l ++ [c]).
Proof.
  intros N D. induction D as [|x r X D IH]; cbn [app]; [repeat constructor; intros []|]. constructor.
  - rewrite in_app_iff. cbn [In] in *. intuition congruence.
  - apply IH. intro Y. apply N. now right.
Qed.
Lemma memb_rm x c l : x <> c -> memb x (rm c l) = memb x l.
Proof.
  intro N. destruct (memb x l) eqn:E; [apply memb_in in E; apply memb_in, in_rm; auto|].
  destruct (memb x (rm c l)) eqn:F; [|reflexivity]. apply memb_in, in_rm in F. rewrite <- E. symmetry. now apply memb_in.
Qed.
Lemma kz_rm_pend c s : kz s (set_pend (rm c (pend s)) s).
Proof.
  intros [W1 W2 W3 W4 W5]. constructor.
  - constructor; cbn [nextc pend lpend cs set_pend]; trivial.
    + intros x X. destruct (W1 x X) as (A & B & C). repeat split; trivial. rewrite in_rm. tauto.
    + intros x X. apply in_rm in X. now apply W2.
    + now apply NoDup_rm.
  - exists []. split; [reflexivity|]. intro x. exists (ph s x). split; [reflexivity|]. unfold ph. cbn [nextc pend lpend cs set_pend].
    destruct (N.eq_dec x c) as [->|N]; [|rewrite memb_rm by exact N; now left].
    destruct (k_kind (cs s c)); try (now left). assert (E : memb c (rm c (pend s)) = false).
    { destruct (memb c (rm c (pend s))) eqn:E; [|reflexivity]. apply memb_in, in_rm in E. now destruct E. }
    rewrite E. destruct (memb c (pend s)), (memb c (lpend s)), (nextc s <=? c); cbn [orb]; solve [now left|right; now split].
Qed.
Lemma kz_rm_lpend c s : kz s (set_lpend (rm c (lpend s)) s).
Proof.
  intros [W1 W2 W3 W4 W5]. constructor.
  - constructor; cbn [nextc pend lpend cs set_lpend]; trivial.
    + intros x X. destruct (W1 x X) as (A & B & C). repeat split; trivial. rewrite in_rm. tauto.
    + intros x X. destruct (W2 x X). split; trivial. rewrite in_rm. tauto.
    + intros x X. apply in_rm in X. now apply W3.
    + now apply NoDup_rm.
  - exists []. split; [reflexivity|]. intro x. exists (ph s x). split; [reflexivity|]. unfold ph. cbn [nextc pend lpend cs set_lpend].
    destruct (N.eq_dec x c) as [->|N]; [|rewrite memb_rm by exact N; now left].
    destruct (k_kind (cs s c)); try (now left). assert (E : memb c (rm c (lpend s)) = false).
    { destruct (memb c (rm c (lpend s))) eqn:E; [|reflexivity]. apply memb_in, in_rm in E. now destruct E. }
    rewrite E. destruct (memb c (pend s)), (memb c (lpend s)), (nextc s <=? c); cbn [orb]; solve [now left|right; now split].
Qed.
(** An entry about the open connection [c]. *)
Lemma kz_use c t s : k_kind (cs s c) <> KNone -> (forall x, role_of x t = if c =? x then Used else Free) -> kz s (emit t s).
Proof.
  intros K R H. constructor; [now apply (W_eq s)|]. exists [t]. split; [reflexivity|]. intro x. exists (ph s x). split; [|now left].
  unfold goes. cbn [rev app fold_left nxt]. rewrite R. destruct (N.eqb_spec c x) as [->|]; [|reflexivity]. unfold ph. now destruct (k_kind (cs s x)).
Qed.

(** ** What happens to one connection before it is reported *)
Record stretch (c : N) (s s1 : node) : Prop := {
  T_log : adds quiet s s1; T_next : nextc s <= nextc s1;
  T_kind : forall y, y <> c -> k_kind (cs s1 y) = k_kind (cs s y);
  T_pend : forall y, y <> c -> In y (pend s1) <-> In y (pend s);
  T_lpend : forall y, y <> c -> In y (lpend s1) <-> In y (lpend s);
  T_old : forall y, y <> c -> y < nextc s1 <-> y < nextc s;
  T_nd : NoDup (pend s) -> NoDup (pend s1); T_lnd : NoDup (lpend s) -> NoDup (lpend s1) }.
Lemma stretch_refl c s : stretch c s s. Proof. constructor; trivial; try (intros; reflexivity). apply adds_refl. Qed.
Lemma stretch_trans c s1 s2 s3 : stretch c s1 s2 -> stretch c s2 s3 -> stretch c s1 s3.
Proof.
  intros [A1 A2 A3 A4 A5 A6 A7 A8] [B1 B2 B3 B4 B5 B6 B7 B8]. constructor; auto.
  - eapply adds_trans; eauto.
  - etransitivity; eauto.
  - intros y Y. rewrite B3, A3; auto.
  - intros y Y. rewrite B4, A4; auto. reflexivity.
  - intros y Y. rewrite B5, A5; auto. reflexivity.
  - intros y Y. rewrite B6, A6; auto. reflexivity.
Qed.
Lemma stretch_same c s s1 : nextc s1 = nextc s -> pend s1 = pend s -> lpend s1 = lpend s -> (forall y, y <> c -> cs s1 y = cs s y) -> adds quiet s s1 ->
  stretch c s s1.
Proof. intros A B C D E. constructor; rewrite ?A, ?B, ?C; trivial; try (intros; reflexivity). intros y Y. now rewrite D. Qed.
Lemma stretch_on_c c f s : stretch c s (on_c c f s).
Proof. apply stretch_same; trivial; [|now apply adds_same]. intros y Y. rewrite cs_on_c. now destruct (N.eqb_spec y c). Qed.
Lemma quiet_rm_timer c s : adds quiet s (rm_timer c s).
Proof.
  unfold rm_timer. destruct (in_timer s c); [|apply adds_refl].
  destruct (is_connected s c); [now apply adds_same|]. exists [TInvalid c]. split; [reflexivity|now repeat constructor].
Qed.
Lemma quiet_set_status c v s : adds quiet s (set_status c v s).
Proof.
  unfold set_status. destruct (cst_eqb _ v); [apply adds_refl|].
  destruct v; try (now apply adds_same). eapply adds_trans; [|apply quiet_rm_timer]. now apply adds_same.
Qed.
Lemma quiet_on_disconnect c s : adds quiet s (on_disconnect c s).
Proof.
  unfold on_disconnect. destruct (_ && _); [|apply adds_refl]. cbv zeta. set (s1 := set_popr _ _).
  apply (adds_trans _ _ s1); [now apply adds_same|]. clearbody s1. destruct (fl_act s1); [apply adds_refl|]. unfold fatal_shutdown, shutdown.
  destruct (fl_shut s1); [apply adds_refl|]. cbv zeta. destruct (fl_act _); [|now apply adds_same].
  apply (adds_emit quiet (TDown E_MASK_CONFLICT) (set_fl_shut true s1)). exact Logic.I.
Qed.
Lemma stretch_status c v s : stretch c s (set_status c v s).
Proof. apply stretch_same; try fr1; [|apply quiet_set_status]. intros y Y. rewrite cs_set_status. now destruct (N.eqb_spec y c). Qed.
Lemma stretch_orc c s : stretch c s (fst (take_orc s)).
Proof. apply stretch_same; try fr1; [|apply adds_same; fr1]. intros y Y. now rewrite (keeps2 (f := cs)). Qed.
Lemma stretch_add_proc c d s : stretch c s (add_proc d s).
Proof. unfold add_proc. destruct (_ || _); [apply stretch_refl|]. now apply stretch_same; trivial; apply adds_same. Qed.
Lemma stretch_create s : stretch (nextc s) s (fst (conn_create s)).
Proof.
  unfold conn_create. cbn [fst]. set (s1 := set_nextc _ _).
  assert (E : forall s0, adds quiet s0 (add_timer (nextc s) s0)) by (intro s0; unfold add_timer; destruct (nst s0); first [apply adds_refl|now apply adds_same]).
  assert (F : stretch (nextc s) s1 (add_timer (nextc s) s1)) by (apply stretch_same; try fr1; [intros; now rewrite (keeps (f := cs) (g := add_timer _))|apply E]).
  eapply stretch_trans; [|exact F]. subst s1. constructor; cbn [nextc pend lpend cs set_nextc set_cs log]; trivial; try (intros; reflexivity).
  - now apply adds_same.
  - lia.
  - intros y Y. unfold upd. now destruct (N.eqb_spec y (nextc s)).
  - intros y Y. lia.
Qed.
Lemma stretch_add_pend c s : ~ In c (pend s) -> stretch c s (set_pend (pend s ++ [c]) s).
Proof.
  intro N. constructor; cbn [nextc pend lpend cs set_pend]; trivial; try (intros; reflexivity).
  - now apply adds_same.
  - intros y Y. rewrite in_app_iff. cbn [In]. split; [intros [?|[?|[]]]; [assumption|congruence]|auto].
  - intro D. apply NoDup_app_snoc; assumption.
Qed.
Lemma stretch_add_lpend c s : ~ In c (lpend s) -> stretch c s (set_lpend (lpend s ++ [c]) s).
Proof.
  intro N. constructor; cbn [nextc pend lpend cs set_lpend]; trivial; try (intros; reflexivity).
  - now apply adds_same.
  - intros y Y. rewrite in_app_iff. cbn [In]. split; [intros [?|[?|[]]]; [assumption|congruence]|auto].
  - intro D. apply NoDup_app_snoc; assumption.
Qed.
Lemma stretch_rm_pend c s : stretch c s (set_pend (rm c (pend s)) s).
Proof.
  constructor; cbn [nextc pend lpend cs set_pend]; trivial; try (intros; reflexivity).
  - now apply adds_same.
  - intros y Y. rewrite in_rm. tauto.
  - apply NoDup_rm.
Qed.
Lemma stretch_rm_lpend c s : stretch c s (set_lpend (rm c (lpend s)) s).
Proof.
  constructor; cbn [nextc pend lpend cs set_lpend]; trivial; try (intros; reflexivity).
  - now apply adds_same.
  - intros y Y. rewrite in_rm. tauto.
  - apply NoDup_rm.
Qed.
Lemma stretch_ph c s s1 y : stretch c s s1 -> y <> c -> ph s1 y = ph s y.
Proof.
  intros T Y. unfold ph. rewrite (T_kind _ _ _ T y Y).
  assert (A : memb y (pend s1) = memb y (pend s)) by (apply eq_true_iff_eq; rewrite !memb_in; now apply (T_pend _ _ _ T)).
  assert (B : memb y (lpend s1) = memb y (lpend s)) by (apply eq_true_iff_eq; rewrite !memb_in; now apply (T_lpend _ _ _ T)).
  assert (C : (nextc s1 <=? y) = (nextc s <=? y)) by (apply eq_true_iff_eq; rewrite !N.leb_le; pose proof (T_old _ _ _ T y Y); lia).
  now rewrite A, B, C.
Qed.
Lemma stretch_W c s s1 : stretch c s s1 ->
  (k_kind (cs s1 c) <> KNone -> c < nextc s1 /\ ~ In c (pend s1) /\ ~ In c (lpend s1)) ->
  (In c (pend s1) -> c < nextc s1 /\ ~ In c (lpend s1)) -> (In c (lpend s1) -> c < nextc s1) -> W s -> W s1.
Proof.
  intros T K1 K2 K3 [W1 W2 W3 W4 W5]. constructor; [| | |now apply (T_nd _ _ _ T)|now apply (T_lnd _ _ _ T)]; intro y;
    (destruct (N.eq_dec y c) as [->|Y]; [assumption|]); rewrite ?(T_kind _ _ _ T y Y), ?(T_pend _ _ _ T y Y), ?(T_lpend _ _ _ T y Y), ?(T_old _ _ _ T y Y); auto.
Qed.
Lemma born c s s1 : stretch c s s1 -> (W s -> ph s c = Fresh) -> (W s -> k_kind (cs s1 c) <> KNone /\ c < nextc s1 /\ ~ In c (pend s1) /\ ~ In c (lpend s1)) ->
  kz s (emit (TNew c) s1).
Proof.
  intros T P K H. specialize (P H). destruct (K H) as (A & B & C & D). constructor.
  - apply (W_eq s1); trivial. apply (stretch_W c s); tauto.
  - destruct (T_log _ _ _ T) as (l & E & F). exists (TNew c :: l). split; [change (log (emit (TNew c) s1)) with (TNew c :: log s1); now rewrite E|]. intro y.
    change (ph (emit (TNew c) s1) y) with (ph s1 y). destruct (N.eq_dec y c) as [->|Y].
    + exists Opened. split; [|left; unfold ph; now destruct (k_kind (cs s1 c))]. apply (goes_app _ _ Fresh _ l [TNew c]); [rewrite P; now apply goes_quiet|].
      unfold goes. cbn [rev app fold_left nxt role_of]. now rewrite N.eqb_refl.
    + exists (ph s y). split; [|left; symmetry; now apply (stretch_ph c)]. apply (goes_app _ _ (ph s y) _ l [TNew c]); [now apply goes_quiet|].
      unfold goes. cbn [rev app fold_left nxt role_of]. destruct (N.eqb_spec c y); [congruence|reflexivity].
Qed.
Lemma idle c s s1 : stretch c s s1 -> (W s -> ph s c = Fresh) ->
  (W s -> k_kind (cs s1 c) = KNone /\ (In c (pend s1) -> c < nextc s1 /\ ~ In c (lpend s1)) /\ (In c (lpend s1) -> c < nextc s1)) -> kz s s1.
Proof.
  intros T P K H. specialize (P H). destruct (K H) as (A & B & C). constructor.
  - apply (stretch_W c s); trivial. intro X. now rewrite A in X.
  - destruct (T_log _ _ _ T) as (l & E & F). exists l. split; [exact E|]. intro y. exists (ph s y). split; [now apply goes_quiet|].
    destruct (N.eq_dec y c) as [->|Y]; [|left; symmetry; now apply (stretch_ph c)]. rewrite P. unfold ph. rewrite A.
    destruct (_ || _); [now left|right; now split].
Qed.

Create HintDb kz discriminated.
#[local] Hint Constants Opaque : kz.
#[local] Hint Variables Opaque : kz.
#[local] Hint Resolve kz_emit kz_on_c kz_on_e kz_set_es kz_set_nexte kz_set_cf kz_set_self kz_rm_pend kz_rm_lpend : kz.
#[local] Hint Extern 1 (quiet _) => exact Logic.I : kz.
#[local] Hint Extern 1 (forall k, k_kind _ = k_kind k) => intro; reflexivity : kz.
Ltac omvn H v :=
  lazymatch type of H with
  | kz ?s ?s1 => refine (kz_trans s s1 _ H _); clear H; set (v := s1) in *; clearbody v
  end.
Ltac omv H := let v := fresh "s" in omvn H v.
Ltac oleaf := solve [eauto 3 with kz].
Ltac og1 :=
  cbv beta;
  lazymatch goal with
  | |- kz ?s ?s => apply kz_refl
  | |- kz ?s (fst (let x := ?e in @?b x)) => og_let s e ltac:(fun e' => change (kz s (fst (b e'))))
  | |- kz ?s (let x := ?e in @?b x) => og_let s e ltac:(fun e' => change (kz s (b e')))
  | |- kz ?s (fst (fst (let x := ?e in @?b x))) => og_let s e ltac:(fun e' => change (kz s (fst (fst (b e')))))
  | |- kz ?s (fst (fst (fst (let x := ?e in @?b x)))) => og_let s e ltac:(fun e' => change (kz s (fst (fst (fst (b e'))))))
  | |- kz ?s (fst (fst (fst (match ?x with _ => _ end)))) => og_case s x
  | |- kz ?s (fst (fst (match ?x with _ => _ end))) => og_case s x
  | |- kz ?s (fst (match ?x with _ => _ end)) => og_case s x
  | |- kz ?s (match ?x with _ => _ end) => og_case s x
  | |- kz ?s (fst (fst (fst (?x, ?y)))) => change (kz s (fst (fst x)))
  | |- kz ?s (fst (fst (?x, ?y))) => change (kz s (fst x))
  | |- kz ?s (fst (?x, ?y)) => change (kz s x)
  | |- kz ?s (fst (fst (fst (?h ?t)))) => og_at s t
  | |- kz ?s (fst (fst (?h ?t))) => og_at s t
  | |- kz ?s (fst (?h ?t)) => og_at s t
  | |- kz ?s (?g ?t) => og_at s t
  end
with og_at s t :=
  first [ constr_eq s t; oleaf
        | let H := fresh in assert (H : kz s t) by (repeat og1); omv H; oleaf ]
with og_let s e k :=
  lazymatch type of e with
  | node =>
      first [ constr_eq s e; k s; cbv beta
            | let H := fresh in assert (H : kz s e) by (repeat og1); k e; cbv beta; omv H ]
  | _ => let v := fresh in set (v := e); k v; cbv beta; clearbody v
  end
with og_case s x :=
  lazymatch type of x with
  | (node * _)%type =>
      let H := fresh in assert (H : kz s (fst x)) by (repeat og1);
      let E := fresh "E" in destruct x as [? ?] eqn:E; cbn [fst] in H; clear E; omv H
  | (node * _ * _)%type =>
      let H := fresh in assert (H : kz s (fst (fst x))) by (repeat og1);
      let E := fresh "E" in destruct x as [[? ?] ?] eqn:E; cbn [fst] in H; clear E; omv H
  | (node * _ * _ * _)%type =>
      let H := fresh in assert (H : kz s (fst (fst (fst x)))) by (repeat og1);
      let E := fresh "E" in destruct x as [[[? ?] ?] ?] eqn:E; cbn [fst] in H; clear E; omv H
  | _ => let E := fresh "E" in destruct x eqn:E in |- *
  end.
Ltac ogo := repeat og1.
Ltac oframe := intros; apply kz_intro; first [reflexivity | fr1].
Lemma kz_set_nst v s : kz s (set_nst v s). Proof. now apply kz_intro. Qed.
#[local] Hint Resolve kz_set_nst : kz.
Lemma kz_set_parent v s : kz s (set_parent v s). Proof. now apply kz_intro. Qed.
#[local] Hint Resolve kz_set_parent : kz.
Lemma kz_set_routes v s : kz s (set_routes v s). Proof. now apply kz_intro. Qed.
#[local] Hint Resolve kz_set_routes : kz.
Lemma kz_set_fl_self v s : kz s (set_fl_self v s). Proof. now apply kz_intro. Qed.
#[local] Hint Resolve kz_set_fl_self : kz.
Lemma kz_set_fl_gce v s : kz s (set_fl_gce v s). Proof. now apply kz_intro. Qed.
#[local] Hint Resolve kz_set_fl_gce : kz.
Lemma kz_set_fl_gcc v s : kz s (set_fl_gcc v s). Proof. now apply kz_intro. Qed.
#[local] Hint Resolve kz_set_fl_gcc : kz.
Lemma kz_set_fl_gcreset v s : kz s (set_fl_gcreset v s). Proof. now apply kz_intro. Qed.
#[local] Hint Resolve kz_set_fl_gcreset : kz.
Lemma kz_fold {A} (f : node -> A -> node) : (forall s x, kz s (f s x)) -> forall l s, kz s (fold_left f l s).
Proof. intros F l. induction l as [|x r IH]; intro s; cbn [fold_left]; [apply kz_refl|]. eapply kz_trans; [apply F|apply IH]. Qed.
Lemma kz_set_connecting v s : kz s (set_connecting v s). Proof. now apply kz_intro. Qed.
#[local] Hint Resolve kz_set_connecting : kz.
Lemma kz_set_pings v s : kz s (set_pings v s). Proof. now apply kz_intro. Qed.
#[local] Hint Resolve kz_set_pings : kz.
Lemma kz_set_gce v s : kz s (set_gce v s). Proof. now apply kz_intro. Qed.
#[local] Hint Resolve kz_set_gce : kz.
Lemma kz_set_gcc v s : kz s (set_gcc v s). Proof. now apply kz_intro. Qed.
#[local] Hint Resolve kz_set_gcc : kz.
Lemma kz_set_procs v s : kz s (set_procs v s). Proof. now apply kz_intro. Qed.
#[local] Hint Resolve kz_set_procs : kz.
Lemma kz_set_seqn v s : kz s (set_seqn v s). Proof. now apply kz_intro. Qed.
#[local] Hint Resolve kz_set_seqn : kz.
Lemma kz_set_qdata v s : kz s (set_qdata v s). Proof. now apply kz_intro. Qed.
#[local] Hint Resolve kz_set_qdata : kz.
Lemma kz_set_qcmd v s : kz s (set_qcmd v s). Proof. now apply kz_intro. Qed.
#[local] Hint Resolve kz_set_qcmd : kz.
Lemma kz_set_orc v s : kz s (set_orc v s). Proof. now apply kz_intro. Qed.
#[local] Hint Resolve kz_set_orc : kz.
Lemma kz_set_salts v s : kz s (set_salts v s). Proof. now apply kz_intro. Qed.
#[local] Hint Resolve kz_set_salts : kz.
Lemma kz_set_fl_act v s : kz s (set_fl_act v s). Proof. now apply kz_intro. Qed.
#[local] Hint Resolve kz_set_fl_act : kz.
Lemma kz_set_fl_shut v s : kz s (set_fl_shut v s). Proof. now apply kz_intro. Qed.
#[local] Hint Resolve kz_set_fl_shut : kz.
Lemma kz_set_fl_preg v s : kz s (set_fl_preg v s). Proof. now apply kz_intro. Qed.
#[local] Hint Resolve kz_set_fl_preg : kz.
Lemma kz_set_fl_reset v s : kz s (set_fl_reset v s). Proof. now apply kz_intro. Qed.
#[local] Hint Resolve kz_set_fl_reset : kz.
Lemma kz_set_sec v s : kz s (set_sec v s). Proof. now apply kz_intro. Qed.
#[local] Hint Resolve kz_set_sec : kz.
Lemma kz_rm_timer c s : kz s (rm_timer c s). Proof. unfold rm_timer. ogo. Qed.
#[local] Hint Resolve kz_rm_timer : kz.
Lemma kz_set_status c v s : kz s (set_status c v s). Proof. unfold set_status. ogo. Qed.
#[local] Hint Resolve kz_set_status : kz.
Lemma kz_on_actived s : kz s (on_actived s). Proof. unfold on_actived. ogo. Qed.
#[local] Hint Resolve kz_on_actived : kz.
Lemma kz_shutdown z s : kz s (shutdown z s). Proof. unfold shutdown. ogo. Qed.
#[local] Hint Resolve kz_shutdown : kz.
Lemma kz_fatal_shutdown z s : kz s (fatal_shutdown z s). Proof. apply kz_shutdown. Qed.
#[local] Hint Resolve kz_fatal_shutdown : kz.
Lemma kz_set_popr v s : kz s (set_popr v s). Proof. now apply kz_intro. Qed.
#[local] Hint Resolve kz_set_popr : kz.
Lemma kz_on_disconnect c s : kz s (on_disconnect c s). Proof. unfold on_disconnect. ogo. Qed.
#[local] Hint Resolve kz_on_disconnect : kz.
Lemma kz_rm_proc a s : kz s (rm_proc a s). Proof. unfold rm_proc. ogo. Qed.
#[local] Hint Resolve kz_rm_proc : kz.
Lemma kz_add_proc c s : kz s (add_proc c s). Proof. unfold add_proc. ogo. Qed.
#[local] Hint Resolve kz_add_proc : kz.
Lemma kz_add_timer c s : kz s (add_timer c s). Proof. unfold add_timer. ogo. Qed.
#[local] Hint Resolve kz_add_timer : kz.
Lemma kz_gc_conn c s : kz s (gc_conn c s). Proof. unfold gc_conn. ogo. Qed.
#[local] Hint Resolve kz_gc_conn : kz.
Lemma kz_gc_ep e s : kz s (gc_ep e s). Proof. unfold gc_ep. ogo. Qed.
#[local] Hint Resolve kz_gc_ep : kz.
Lemma kz_clear_ping e s : kz s (clear_ping e s). Proof. unfold clear_ping. ogo. Qed.
#[local] Hint Resolve kz_clear_ping : kz.
Lemma kz_insert_ping e s : kz s (insert_ping e s). Proof. unfold insert_ping. ogo. Qed.
#[local] Hint Resolve kz_insert_ping : kz.
Lemma kz_add_ping e s : kz s (add_ping e s). Proof. unfold add_ping. ogo. Qed.
#[local] Hint Resolve kz_add_ping : kz.
Lemma kz_disconnect c s : kz s (disconnect c s).
Proof.
  unfold disconnect. pose proof (kz_set_status c Disconnecting s) as K. cbv zeta. set (s1 := set_status c Disconnecting s) in *. clearbody s1.
  assert (G : kz s1 (set_status c Disconnected (on_c c (set_k_kind KNone)
    (let s := on_disconnect c match k_kind (cs s1 c) with KNone => s1 | _ => emit (TClose c) s1 end in
     if k_proc (cs s c) then on_c c (set_k_proc false) (rm_proc (k_addr (cs s c)) s) else s)))).
  2: { destruct (k_st (cs s c)); try apply kz_refl; (eapply kz_trans; [exact K|exact G]). }
  clear K s. rename s1 into s. set (s1 := match k_kind (cs s c) with KNone => s | _ => emit (TClose c) s end). cbv zeta.
  set (s2 := on_disconnect c s1). assert (T2 : stretch c s1 s2) by (subst s2; apply stretch_same; try fr1; [intros; now rewrite (keeps (f := cs) (g := on_disconnect c))|apply quiet_on_disconnect]).
  set (s3 := if k_proc (cs s2 c) then on_c c (set_k_proc false) (rm_proc (k_addr (cs s2 c)) s2) else s2).
  assert (T3 : stretch c s2 s3).
  { subst s3. destruct (k_proc (cs s2 c)); [|apply stretch_refl]. eapply stretch_trans; [|apply stretch_on_c]. apply stretch_same; trivial. now apply adds_same. }
  set (s4 := set_status c Disconnected (on_c c (set_k_kind KNone) s3)).
  assert (T4 : stretch c s3 s4) by (eapply stretch_trans; [apply stretch_on_c|apply stretch_status]).
  assert (T : stretch c s1 s4) by (eapply stretch_trans; [exact T2|eapply stretch_trans; eauto]).
  assert (K4 : k_kind (cs s4 c) = KNone) by (unfold s4; rewrite cs_set_status, N.eqb_refl, cs_on_c, N.eqb_refl; reflexivity).
  assert (F : nextc s4 = nextc s1 /\ pend s4 = pend s1 /\ lpend s4 = lpend s1).
  { assert (F2 : nextc s2 = nextc s1 /\ pend s2 = pend s1 /\ lpend s2 = lpend s1) by (subst s2; repeat split; fr1).
    assert (F3 : nextc s3 = nextc s2 /\ pend s3 = pend s2 /\ lpend s3 = lpend s2) by (subst s3; destruct (k_proc (cs s2 c)); repeat split).
    assert (F4 : nextc s4 = nextc s3 /\ pend s4 = pend s3 /\ lpend s4 = lpend s3) by (subst s4; repeat split; fr1).
    intuition congruence. }
  clearbody s4. clear T2 T3 T4 s2 s3. destruct F as (F1 & F2 & F3). intro H.
  assert (C1 : nextc s1 = nextc s /\ pend s1 = pend s /\ lpend s1 = lpend s /\ cs s1 = cs s) by (subst s1; destruct (k_kind (cs s c)); repeat split).
  destruct C1 as (C1 & C2 & C3 & C4).
  assert (W1 : W s1) by (apply (W_eq s); trivial; now rewrite C4).
  constructor.
  - apply (stretch_W c s1); trivial; rewrite ?F1, ?F2, ?F3, ?K4; [congruence| |]; destruct W1; auto.
  - destruct (T_log _ _ _ T) as (l & E & F). exists (l ++ match k_kind (cs s c) with KNone => [] | _ => [TClose c] end).
    split; [rewrite E, <- app_assoc; subst s1; now destruct (k_kind (cs s c))|]. intro y.
    assert (PH : forall x, ph s1 x = ph s x) by (intro x; apply ph_eq; trivial; now rewrite C4).
    destruct (N.eq_dec y c) as [->|Y].
    + exists (match k_kind (cs s c) with KNone => ph s c | _ => Gone end). split.
      * eapply goes_app; [|now apply goes_quiet]. unfold ph, goes. destruct (k_kind (cs s c)); cbn [rev app fold_left nxt role_of]; rewrite ?N.eqb_refl; reflexivity.
      * left. assert (X : k_kind (cs s c) <> KNone -> (nextc s <=? c) = false /\ memb c (pend s) = false /\ memb c (lpend s) = false).
        { intro X. destruct (W_kind s H c X) as (A & B & D). repeat split; [now apply N.leb_gt| |];
            (match goal with |- ?b = false => destruct b eqn:Z; [apply memb_in in Z; contradiction|reflexivity] end). }
        unfold ph. rewrite K4, F1, F2, F3, C1, C2, C3. destruct (k_kind (cs s c)); [reflexivity|..]; (destruct X as (-> & -> & ->); [discriminate|reflexivity]).
    + exists (ph s y). split; [|left; rewrite (stretch_ph c s1 s4 y T Y); now rewrite PH].
      eapply goes_app; [|now apply goes_quiet]. unfold goes. destruct (k_kind (cs s c)); cbn [rev app fold_left nxt role_of]; trivial; (destruct (N.eqb_spec c y); [congruence|reflexivity]).
Qed.
#[local] Hint Resolve kz_disconnect : kz.
Lemma kz_conn_close c s : kz s (conn_close c s). Proof. unfold conn_close. ogo. Qed.
#[local] Hint Resolve kz_conn_close : kz.
Lemma kz_conn_fin c s : kz s (conn_fin c s). Proof. unfold conn_fin. ogo. Qed.
#[local] Hint Resolve kz_conn_fin : kz.
Lemma kz_conn_reset_in c s : kz s (conn_reset_in c s). Proof. unfold conn_reset_in. ogo. Qed.
#[local] Hint Resolve kz_conn_reset_in : kz.
Lemma kz_resets l s : kz s (fold_left (fun s c => conn_reset_in c s) l s). Proof. apply kz_fold. intros. apply kz_conn_reset_in. Qed.
#[local] Hint Resolve kz_resets : kz.
Lemma kz_ep_reset b g e s : kz s (ep_reset b g e s). Proof. unfold ep_reset. ogo. Qed.
#[local] Hint Resolve kz_ep_reset : kz.
Lemma kz_conn_reset c s : kz s (conn_reset c s). Proof. unfold conn_reset. ogo. Qed.
#[local] Hint Resolve kz_conn_reset : kz.
Lemma kz_ep_drop e s : kz s (ep_drop e s). Proof. unfold ep_drop. ogo. Qed.
#[local] Hint Resolve kz_ep_drop : kz.
Lemma kz_conn_drop c s : kz s (conn_drop c s). Proof. unfold conn_drop. ogo. Qed.
#[local] Hint Resolve kz_conn_drop : kz.
Lemma kz_conn_fault c s : kz s (conn_fault c s). Proof. unfold conn_fault. ogo. Qed.
#[local] Hint Resolve kz_conn_fault : kz.
Lemma kz_add_endpoint e s : kz s (fst (add_endpoint e s)). Proof. unfold add_endpoint. ogo. Qed.
#[local] Hint Resolve kz_add_endpoint : kz.
Lemma kz_remove_endpoint i x s : kz s (fst (remove_endpoint i x s)). Proof. unfold remove_endpoint. ogo. Qed.
#[local] Hint Resolve kz_remove_endpoint : kz.
Lemma kz_ep_fault e s : kz s (fst (ep_fault e s)). Proof. unfold ep_fault. ogo. Qed.
#[local] Hint Resolve kz_ep_fault : kz.
Lemma kz_add_listen e a s : kz s (add_listen e a s). Proof. unfold add_listen. ogo. Qed.
#[local] Hint Resolve kz_add_listen : kz.
Lemma kz_written c z n s : kz s (written c z n s).
Proof.
  unfold written. destruct (linked s c) eqn:L; [|apply kz_refl].
  assert (K : kz s (emit (TWrote c z n) s)) by (apply (kz_use c); [intro X; unfold linked in L; rewrite X in L; discriminate|intro x; reflexivity]).
  eapply kz_trans; [exact K|]. generalize (emit (TWrote c z n) s). intro s1. ogo.
Qed.
#[local] Hint Resolve kz_written : kz.
Lemma kz_ep_create i u p h s : kz s (fst (ep_create i u p h s)). Proof. unfold ep_create. ogo. Qed.
#[local] Hint Resolve kz_ep_create : kz.
Lemma kz_add_connection e c b s : kz s (fst (add_connection e c b s)). Proof. unfold add_connection. ogo. Qed.
#[local] Hint Resolve kz_add_connection : kz.
Lemma kz_created e s : kz s (fst (created e s)). Proof. unfold created. ogo. Qed.
#[local] Hint Resolve kz_created : kz.
Lemma kz_alloc_seq  s : kz s (fst (alloc_seq  s)). Proof. unfold alloc_seq. ogo. Qed.
#[local] Hint Resolve kz_alloc_seq : kz.
Lemma kz_take_orc  s : kz s (fst (take_orc  s)). Proof. unfold take_orc. ogo. Qed.
#[local] Hint Resolve kz_take_orc : kz.
Lemma kz_take_salt  s : kz s (fst (take_salt  s)). Proof. unfold take_salt. ogo. Qed.
#[local] Hint Resolve kz_take_salt : kz.
Lemma kz_push c m s : kz s (fst (push c m s)).
Proof.
  unfold push. cbv zeta. set (s1 := on_c c _ s). assert (K : kz s s1) by (subst s1; ogo).
  assert (P : k_kind (cs s1 c) <> KNone -> forall n z, kz s1 (emit (TSend c m n z) (fst (take_orc s1)))).
  { intros X n z. eapply kz_trans; [apply kz_take_orc|]. apply (kz_use c); [now rewrite (keeps2 (f := cs))|intro x; reflexivity]. }
  clearbody s1. eapply kz_trans; [exact K|]. clear K.
  destruct (k_st (cs s1 c)); try solve [ogo]; (destruct (k_kind (cs s1 c)); try solve [ogo]; (specialize (P ltac:(discriminate)));
    destruct (take_orc s1) as [s2 r]; cbn [fst] in P |- *; (eapply kz_trans; [apply (P (x_size (cf s) m) r)|]); ogo).
Qed.
#[local] Hint Resolve kz_push : kz.
Lemma kz_send_on c m s : kz s (fst (send_on c m s)). Proof. unfold send_on. ogo. Qed.
#[local] Hint Resolve kz_send_on : kz.

Lemma kz_gen_keys ts : forall s, kz s (fst (gen_keys ts s)).
Proof. induction ts as [|t r IH]; intro s; cbn [gen_keys]; ogo. Qed.
#[local] Hint Resolve kz_gen_keys : kz.
Lemma kz_send_reg rsp c z q s : kz s (fst (send_reg rsp c z q s)). Proof. unfold send_reg. ogo. Qed.
#[local] Hint Resolve kz_send_reg : kz.
Lemma kz_send_ping c q s : kz s (fst (send_ping c q s)). Proof. unfold send_ping. ogo. Qed.
#[local] Hint Resolve kz_send_ping : kz.
Lemma kz_number m s : kz s (fst (number m s)). Proof. unfold number. ogo. Qed.
#[local] Hint Resolve kz_number : kz.
Lemma kz_post d i m s : kz s (fst (post d i m s)).
Proof.
  unfold post. pose proof (kz_number m s) as K.
  destruct (number m s) as [s1 m1]. cbn [fst snd] in *.
  destruct (nst s); try apply kz_refl; (destruct (_ =? _);
    [omvn K s2; ogo|destruct (remote d s i) as [[r oe] oc]; destruct (r <? 0)%Z; [apply kz_refl|]; destruct oc; [|apply kz_refl]; omvn K s2; ogo]).
Qed.
#[local] Hint Resolve kz_post : kz.
Lemma kz_send_cmd_rsp oc d t z q f s : kz s (fst (send_cmd_rsp oc d t z q f s)). Proof. unfold send_cmd_rsp. ogo. Qed.
#[local] Hint Resolve kz_send_cmd_rsp : kz.
Lemma kz_cmd_req oc h q s : (forall c, oc = Some c -> k_kind (cs s c) <> KNone) -> kz s (fst (cmd_req oc h q s)).
Proof.
  intro O. unfold cmd_req. destruct (_ <? _)%Z; [ogo|]. destruct (match oc with None => _ | Some _ => _ end); [apply kz_refl|].
  destruct (negb (keys_ok _ _)); [ogo|].
  assert (K : kz s (emit (TCmd oc (q_from q) (q_args q)) s)).
  { destruct oc as [c|]; [|ogo]. apply (kz_use c); [now apply O|intro x; reflexivity]. }
  cbv zeta. omvn K s1. ogo.
Qed.
Lemma kz_cmd_req_self h q s : kz s (fst (cmd_req None h q s)). Proof. apply kz_cmd_req. discriminate. Qed.
#[local] Hint Resolve kz_cmd_req_self : kz.
#[local] Hint Resolve kz_cmd_req : kz.
Lemma kz_cmd_rsp oc h q s : (forall c, oc = Some c -> k_kind (cs s c) <> KNone) -> kz s (fst (cmd_rsp oc h q s)).
Proof.
  intro O. unfold cmd_rsp. destruct (match oc with None => _ | Some _ => _ end); [apply kz_refl|]. cbn [fst].
  destruct oc as [c|]; [|ogo]. apply (kz_use c); [now apply O|intro x; reflexivity].
Qed.
Lemma kz_cmd_rsp_self h q s : kz s (fst (cmd_rsp None h q s)). Proof. apply kz_cmd_rsp. discriminate. Qed.
#[local] Hint Resolve kz_cmd_rsp_self : kz.
#[local] Hint Resolve kz_cmd_rsp : kz.
Lemma kz_self_data m s : kz s (self_data m s). Proof. unfold self_data. ogo. Qed.
#[local] Hint Resolve kz_self_data : kz.
Lemma kz_self_cmd m s : kz s (self_cmd m s).
Proof. unfold self_cmd. destruct (m_body m) as [|[] q| | | | |]; try apply kz_refl; [apply kz_cmd_rsp_self|apply kz_cmd_req_self]. Qed.
#[local] Hint Resolve kz_self_cmd : kz.
Lemma kz_data_loop n : forall s, kz s (fst (fst (self_data_loop n s))).
Proof. induction n as [|n IH]; intro s; cbn [self_data_loop]; ogo. Qed.
Lemma kz_cmd_loop n : forall s, kz s (fst (self_cmd_loop n s)).
Proof. induction n as [|n IH]; intro s; cbn [self_cmd_loop]; ogo. Qed.
#[local] Hint Resolve kz_data_loop kz_cmd_loop : kz.
Lemma kz_dispatch_self s : kz s (fst (dispatch_self s)).
Proof. unfold dispatch_self. ogo. Qed.
#[local] Hint Resolve kz_dispatch_self : kz.
Lemma kz_send_to d i m s : kz s (fst (send_to d i m s)). Proof. unfold send_to. ogo. Qed.
#[local] Hint Resolve kz_send_to : kz.
(** [c] is about to be used for the first time. *)
Definition ready (c : N) (s0 s : node) : Prop :=
  stretch c s0 s /\ (W s0 -> ph s0 c = Fresh) /\ (W s0 -> k_kind (cs s c) = KNone /\ c < nextc s /\ ~ In c (pend s) /\ ~ In c (lpend s)).
Lemma fresh_create s : ready (nextc s) s (fst (conn_create s)).
Proof.
  split; [apply stretch_create|]. split.
  - intros [W1 _ _ _ _]. unfold ph. rewrite (proj2 (N.leb_le (nextc s) (nextc s)) (N.le_refl _)), orb_true_r.
    destruct (k_kind (cs s (nextc s))) eqn:K; trivial; (destruct (W1 (nextc s)) as (A & _); [rewrite K; discriminate|lia]).
  - intros [W1 W2 W3 W4 W5]. unfold conn_create. cbn [fst]. rewrite !(keeps (g := add_timer _)). cbn [nextc pend lpend cs set_nextc set_cs].
    unfold upd. rewrite N.eqb_refl. repeat split; [lia| |]; intro X; [apply W2 in X|apply W3 in X]; lia.
Qed.
Lemma ready_more c s0 s s1 : ready c s0 s -> stretch c s s1 -> k_kind (cs s1 c) = k_kind (cs s c) -> nextc s1 = nextc s -> pend s1 = pend s -> lpend s1 = lpend s -> ready c s0 s1.
Proof.
  intros (A & B & C) T E1 E2 E3 E4. split; [eapply stretch_trans; eauto|]. split; [exact B|]. rewrite E1, E2, E3, E4. exact C.
Qed.
Lemma ready_on_c c f s0 s : (forall k, k_kind (f k) = k_kind k) -> ready c s0 s -> ready c s0 (on_c c f s).
Proof. intros F R. eapply ready_more; [exact R|apply stretch_on_c| | | |]; trivial. rewrite cs_on_c, N.eqb_refl. apply F. Qed.
Lemma ready_orc c s0 s : ready c s0 s -> ready c s0 (fst (take_orc s)).
Proof. intro R. eapply ready_more; [exact R|apply stretch_orc| | | |]; try fr1. now rewrite (keeps2 (f := cs)). Qed.
Lemma ready_status c v s0 s : ready c s0 s -> ready c s0 (set_status c v s).
Proof. intro R. eapply ready_more; [exact R|apply stretch_status| | | |]; try fr1. now rewrite cs_set_status, N.eqb_refl. Qed.
Lemma ready_idle c s0 s : ready c s0 s -> kz s0 s.
Proof. intros (A & B & C). eapply idle; [exact A|exact B|]. intro H. destruct (C H) as (? & ? & ? & ?). tauto. Qed.
Lemma ready_born c s0 s s1 : ready c s0 s -> stretch c s s1 -> k_kind (cs s1 c) <> KNone -> nextc s1 = nextc s -> pend s1 = pend s -> lpend s1 = lpend s ->
  kz s0 (emit (TNew c) s1).
Proof.
  intros (A & B & C) T E1 E2 E3 E4. eapply born; [eapply stretch_trans; eauto|exact B|]. rewrite E2, E3, E4. intro H. split; [exact E1|]. now apply C.
Qed.
Lemma kz_new_rest c s : kz (emit (TNew c) s) (on_new_connection c s).
Proof. unfold on_new_connection. ogo. Qed.
Lemma ready_new c k g s0 s : ready c s0 s -> k <> KNone -> (forall s, stretch c s (g s)) -> (forall s, nextc (g s) = nextc s /\ pend (g s) = pend s /\ lpend (g s) = lpend s) ->
  (forall s, k_kind (cs (g s) c) = k) -> kz s0 (on_new_connection c (g s)).
Proof.
  intros R K T F E. eapply kz_trans; [|apply kz_new_rest]. destruct (F s) as (F1 & F2 & F3). eapply ready_born; [exact R|apply T| | | |]; trivial. now rewrite E.
Qed.
Lemma kz_conn_connect c a s0 s : ready c s0 s -> kz s0 (fst (conn_connect c a s)).
Proof.
  intro R. unfold conn_connect. destruct (k_st (cs s c)); try (now apply (ready_idle c)).
  destruct (parse_address a) as [|p| |]; try (cbn [fst]; apply (ready_idle c); now apply ready_on_c).
  2,3: cbn [fst]; eapply kz_trans; [apply (ready_idle c); exact R|apply kz_emit; exact Logic.I].
  cbv zeta. apply (ready_on_c c (set_k_addr a)) in R; [|reflexivity]. set (s1 := on_c c (set_k_addr a) s) in *. clearbody s1. clear s. rename s1 into s.
  destruct (_ || _).
  - apply ready_orc in R. destruct (take_orc s) as [s1 r]. cbn [fst] in R. destruct (r <? 0)%Z; [now apply (ready_idle c)|]. cbn [fst].
    set (f := fun k => flags_of _ true (set_k_kind KSend k)).
    apply (ready_new c KSend (fun s => set_status c (match k_bind (cs (on_c c f s) c) with None => Handshaking | Some _ => Connected end) (on_c c f s))); trivial; [discriminate|..]; intro x.
    + eapply stretch_trans; [apply stretch_on_c|apply stretch_status].
    + repeat split; fr1.
    + rewrite cs_set_status, N.eqb_refl, cs_on_c, N.eqb_refl. reflexivity.
  - match goal with |- context [set_status c Connecting ?x] => set (s1 := x) end.
    assert (R1 : ready c s0 s1) by (subst s1; destruct (_ && _); [now apply ready_on_c|destruct (_ && _); [now apply ready_on_c|destruct (prefix_nocase _ _); [now apply ready_on_c|exact R]]]).
    clearbody s1. apply (ready_status c Connecting) in R1. apply ready_orc in R1. destruct (take_orc (set_status c Connecting s1)) as [s2 r]. cbn [fst] in *.
    destruct (r <? 0)%Z; [now apply (ready_idle c)|]. destruct R1 as (A & B & C). intro H. destruct (C H) as (C1 & C2 & C3 & C4). revert H.
    apply (idle c); [eapply stretch_trans; [exact A|now apply stretch_add_pend]|exact B|]. intros _. cbn [nextc pend lpend cs set_pend]. tauto.
Qed.
Lemma kz_connect a s : kz s (fst (connect a s)).
Proof.
  unfold connect. pose proof (fresh_create s) as R. pose proof (kz_conn_connect (nextc s) a s _ R) as K.
  destruct (nst s); try apply kz_refl;
    (destruct (existsb _ _); [apply kz_refl|]; change (conn_create s) with (fst (conn_create s), nextc s); cbv iota beta;
     destruct (_ || _); [now apply (ready_idle (nextc s))|]; destruct (conn_connect _ _ _) as [s1 r]; cbn [fst] in K; now destruct (r <? 0)%Z).
Qed.
#[local] Hint Resolve kz_connect : kz.
Lemma kz_connect_ep a e s : kz s (fst (connect_ep a e s)).
Proof.
  unfold connect_ep. pose proof (fresh_create s) as R. pose proof (kz_conn_connect (nextc s) a s _ R) as K.
  destruct (nst s); try apply kz_refl;
    (destruct (existsb _ _); [apply kz_refl|]; change (conn_create s) with (fst (conn_create s), nextc s); cbv iota beta;
     destruct (conn_connect _ _ _) as [s1 r]; cbn [fst] in K; destruct (r <? 0)%Z; [exact K|]; omvn K s2; ogo).
Qed.
#[local] Hint Resolve kz_connect_ep : kz.
Lemma kz_listen_cb c z s0 s : ready c s0 s -> kz s0 (listen_cb c z s).
Proof.
  intro R. unfold listen_cb. destruct (z <? 0)%Z; [apply (ready_idle c); now apply ready_status|].
  apply (ready_new c KListen (fun s => on_c c (set_k_kind KListen) (set_status c Connected (on_c c (fun k => set_k_lfd true (set_k_fd true k)) s)))); trivial; [discriminate|..]; intro x.
  - eapply stretch_trans; [apply stretch_on_c|]. eapply stretch_trans; [apply stretch_status|apply stretch_on_c].
  - cbn [nextc pend lpend on_c set_cs]. repeat split; fr1.
  - rewrite cs_on_c, N.eqb_refl. reflexivity.
Qed.
Lemma kz_conn_listen c a s0 s : ready c s0 s -> kz s0 (fst (conn_listen c a s)).
Proof.
  intro R. unfold conn_listen. destruct (k_st (cs s c)); try (now apply (ready_idle c)).
  destruct (parse_address a) as [|p| |]; try (cbn [fst]; apply (ready_idle c); now apply ready_on_c).
  2,3: cbn [fst]; eapply kz_trans; [apply (ready_idle c); exact R|apply kz_emit; exact Logic.I].
  cbv zeta. apply (ready_on_c c (set_k_addr a)) in R; [|reflexivity]. set (s1 := on_c c (set_k_addr a) s) in *. clearbody s1. clear s. rename s1 into s.
  destruct (_ || _).
  - apply ready_orc in R. destruct (take_orc s) as [s1 r]. cbn [fst] in R. destruct (r <? 0)%Z; [now apply (ready_idle c)|]. cbn [fst].
    set (f := fun k => flags_of _ true (set_k_proc true k)).
    apply (ready_new c KRecv (fun s => set_status c Connected (on_c c f (add_proc c (on_c c (set_k_kind KRecv) s))))); trivial; [discriminate|..]; intro x.
    + eapply stretch_trans; [apply stretch_on_c|]. eapply stretch_trans; [apply stretch_add_proc|]. eapply stretch_trans; [apply stretch_on_c|apply stretch_status].
    + repeat split; (etransitivity; [fr1|]); match goal with |- ?f (on_c _ _ ?y) = _ => change (f y = f x) end; (etransitivity; [fr1|reflexivity]).
    + rewrite cs_set_status, N.eqb_refl, cs_on_c, N.eqb_refl, (keeps (f := cs) (g := add_proc c)), cs_on_c, N.eqb_refl. reflexivity.
  - match goal with |- context [set_status c Connecting ?x] => set (s1 := x) end.
    assert (R1 : ready c s0 s1) by (subst s1; destruct (prefix_nocase _ _); [now apply ready_on_c|exact R]).
    clearbody s1. apply (ready_status c Connecting) in R1. apply ready_orc in R1. destruct (take_orc (set_status c Connecting s1)) as [s2 r]. cbn [fst] in *.
    destruct (r <? 0)%Z; [now apply (ready_idle c)|]. destruct (prefix_nocase _ _); [|now apply kz_listen_cb].
    destruct R1 as (A & B & C). intro H. destruct (C H) as (C1 & C2 & C3 & C4). revert H.
    apply (idle c); [eapply stretch_trans; [exact A|now apply stretch_add_lpend]|exact B|]. intros _. cbn [nextc pend lpend cs set_lpend]. tauto.
Qed.
Lemma kz_listen a s : kz s (fst (listen a s)).
Proof.
  unfold listen. pose proof (fresh_create s) as R. pose proof (kz_conn_listen (nextc s) a s _ R) as K.
  destruct (nst s); try apply kz_refl;
    (change (conn_create s) with (fst (conn_create s), nextc s); cbv iota beta;
     destruct (conn_listen _ _ _) as [s1 r]; cbn [fst] in K; destruct (r <? 0)%Z; [exact K|]; omvn K s2; ogo).
Qed.
#[local] Hint Resolve kz_listen : kz.
Lemma ready_pend c s : In c (pend s) -> ready c s (set_pend (rm c (pend s)) s).
Proof.
  intro I. split; [apply stretch_rm_pend|]. assert (K : W s -> k_kind (cs s c) = KNone).
  { intros [W1 _ _ _ _]. destruct (k_kind (cs s c)) eqn:K; trivial; (destruct (W1 c) as (_ & A & _); [rewrite K; discriminate|contradiction]). }
  split.
  - intro H. unfold ph. rewrite (K H). apply memb_in in I. now rewrite I.
  - intro H. cbn [nextc pend lpend cs set_pend]. destruct (W_pend s H c I). rewrite in_rm. intuition.
Qed.
Lemma ready_lpend c s : In c (lpend s) -> ready c s (set_lpend (rm c (lpend s)) s).
Proof.
  intro I. split; [apply stretch_rm_lpend|]. assert (K : W s -> k_kind (cs s c) = KNone).
  { intros [W1 _ _ _ _]. destruct (k_kind (cs s c)) eqn:K; trivial; (destruct (W1 c) as (_ & _ & A); [rewrite K; discriminate|contradiction]). }
  split.
  - intro H. unfold ph. rewrite (K H). apply memb_in in I. now rewrite I, orb_true_r.
  - intro H. cbn [nextc pend lpend cs set_lpend]. pose proof (W_lpend s H c I). rewrite in_rm. repeat split; [auto|auto| |tauto]. intro X. apply (W_pend s H c) in X. tauto.
Qed.
Lemma kz_connected_cb c z s : In c (pend s) -> kz s (connected_cb c z s).
Proof.
  intro I. pose proof (ready_pend c s I) as R. unfold connected_cb. cbv zeta. eapply kz_trans; [|apply kz_conn_drop].
  set (s1 := set_pend _ s) in *. destruct (z <? 0)%Z; [apply (kz_trans _ s1); [now apply (ready_idle c)|apply kz_conn_reset]|].
  apply (ready_new c KSock (fun s => on_c c (set_k_kind KSock) (set_status c (match k_bind (cs (on_c c (set_k_fd true) s) c) with None => Handshaking | Some _ => Connected end) (on_c c (set_k_fd true) s)))); trivial; [discriminate|..]; intro x.
  - eapply stretch_trans; [apply stretch_on_c|]. eapply stretch_trans; [apply stretch_status|apply stretch_on_c].
  - cbn [nextc pend lpend on_c set_cs]. repeat split; fr1.
  - rewrite cs_on_c, N.eqb_refl. reflexivity.
Qed.
#[local] Hint Resolve kz_connected_cb : kz.
Lemma kz_listened c z s : In c (lpend s) -> kz s (listened c z s).
Proof. intro I. unfold listened. eapply kz_trans; [|apply kz_conn_drop]. apply kz_listen_cb. now apply ready_lpend. Qed.
#[local] Hint Resolve kz_listened : kz.
Lemma kz_accept_failed s : kz s (accept_failed s). Proof. unfold accept_failed. ogo. Qed.
#[local] Hint Resolve kz_accept_failed : kz.
Lemma kz_accepted a s : kz s (accepted a s).
Proof.
  unfold accepted. destruct (_ && _); [apply kz_refl|]. pose proof (fresh_create s) as R.
  change (conn_create s) with (fst (conn_create s), nextc s). cbv iota beta zeta. generalize dependent (nextc s). intros c R.
  apply (ready_new c KSock (fun s => on_c c (fun k => set_k_addr a (set_k_kind KSock (set_k_fd true k))) (set_status c Handshaking s))); trivial; [discriminate|..]; intro x.
  - eapply stretch_trans; [apply stretch_status|apply stretch_on_c].
  - cbn [nextc pend lpend on_c set_cs]. repeat split; fr1.
  - rewrite cs_on_c, N.eqb_refl. reflexivity.
Qed.
#[local] Hint Resolve kz_accepted : kz.
Lemma kz_peer_closed c s : kz s (peer_closed c s). Proof. unfold peer_closed. ogo. Qed.
#[local] Hint Resolve kz_peer_closed : kz.
Lemma kz_node_disconnect i s : kz s (fst (node_disconnect i s)). Proof. unfold node_disconnect. ogo. Qed.
#[local] Hint Resolve kz_node_disconnect : kz.
Lemma kz_transfer_rsp h w z s : kz s (fst (transfer_rsp h w z s)). Proof. unfold transfer_rsp. ogo. Qed.
#[local] Hint Resolve kz_transfer_rsp : kz.
Lemma kz_forward r h w f t s : kz s (fst (fst (fst (forward r h w f t s)))). Proof. unfold forward. ogo. Qed.
#[local] Hint Resolve kz_forward : kz.
Lemma kz_data_rsp c h w s : k_kind (cs s c) <> KNone -> kz s (fst (data_rsp c h w s)).
Proof.
  intro X. unfold data_rsp. destruct (negb _); [apply kz_refl|]. destruct (_ =? _); [apply (kz_use c); [exact X|intro x; reflexivity]|]. ogo.
Qed.
#[local] Hint Resolve kz_data_rsp : kz.
Lemma kz_sync_msg r c h s : kz s (fst (sync_msg r c h s)). Proof. unfold sync_msg. ogo. Qed.
#[local] Hint Resolve kz_sync_msg : kz.
Lemma kz_reg_deny c z q s : kz s (fst (reg_deny c z q s)). Proof. unfold reg_deny. ogo. Qed.
#[local] Hint Resolve kz_reg_deny : kz.
Lemma kz_ping_msg c h t s : kz s (fst (ping_msg c h t s)). Proof. unfold ping_msg. ogo. Qed.
#[local] Hint Resolve kz_ping_msg : kz.
Lemma kz_pong_msg c h t s : kz s (fst (pong_msg c h t s)). Proof. unfold pong_msg. ogo. Qed.
#[local] Hint Resolve kz_pong_msg : kz.
Lemma kz_fault_of c s : kz s (fault_of c s). Proof. unfold fault_of. ogo. Qed.
#[local] Hint Resolve kz_fault_of : kz.
Lemma kz_sweep n now : forall s, kz s (sweep n now s).
Proof. induction n as [|n IH]; intro s; cbn [sweep]; ogo. Qed.
#[local] Hint Resolve kz_sweep : kz.
Lemma kz_fault_drop h e s : kz s (fst (fault_drop h e s)). Proof. unfold fault_drop. ogo. Qed.
#[local] Hint Resolve kz_fault_drop : kz.
Lemma kz_ping_endpoint h e s : kz s (fst (ping_endpoint h e s)). Proof. unfold ping_endpoint. ogo. Qed.
#[local] Hint Resolve kz_ping_endpoint : kz.
Lemma kz_idle_out n e s : kz s (fst (idle_out n e s)). Proof. unfold idle_out. ogo. Qed.
#[local] Hint Resolve kz_idle_out : kz.
Lemma kz_release nx s : kz s (release nx s). Proof. unfold release. ogo. Qed.
#[local] Hint Resolve kz_release : kz.
Lemma kz_ping_loop now n : forall nx s s', ping_loop n now nx s = Some s' -> kz s s'.
Proof.
  induction n as [|n IH]; intros nx s s' X; cbn [ping_loop] in X; [discriminate|].
  destruct (pings s) as [|[t e0] l]; [injection X as <-; apply kz_release|].
  destruct (now <? t); [injection X as <-; apply kz_release|]. cbv zeta in X.
  set (e := match nx with Some e => e | None => e0 end) in X.
  pose proof (kz_idle_out now e s) as K. destruct (idle_out now e s) as [s1 out]. cbn [fst] in K. omvn K s2.
  destruct out.
  - apply IH in X. refine (kz_trans _ _ _ _ X). ogo.
  - set (s3 := if match parent s2 with Some p => e_ref p =? e | None => false end then s2 else fst (ping_endpoint true e s2)) in X.
    assert (K : kz s2 s3) by (unfold s3; destruct (match parent s2 with Some p => _ | None => _ end); ogo).
    clearbody s3. omvn K s5.
    set (s4 := add_ping (d_ep (es s5 e)) s5) in X.
    assert (K : kz s5 s4) by (unfold s4; ogo). clearbody s4. omvn K s6.
    destruct (pings s6) as [|[t2 e2] r]; [injection X as <-; ogo|].
    destruct (now <? t2); [injection X as <-; ogo|].
    destruct (negb (t2 =? t)); [|destruct (e2 =? e)]; apply IH in X; refine (kz_trans _ _ _ _ X); ogo.
Qed.
Lemma kz_gc_one s x : kz s (gc_one s x).
Proof. unfold gc_one. ogo. Qed.
Lemma kz_drop_ep s e : kz s (drop_ep s e). Proof. apply kz_ep_drop. Qed.
Lemma kz_gcs l s : kz s (fold_left gc_one l s). Proof. apply kz_fold. intros. apply kz_gc_one. Qed.
Lemma kz_drops l s : kz s (fold_left drop_ep l s). Proof. apply kz_fold. intros. apply kz_drop_ep. Qed.
Lemma kz_cdrops l s : kz s (fold_left (fun s c => conn_drop c s) l s). Proof. apply kz_fold. intros. apply kz_conn_drop. Qed.
#[local] Hint Resolve kz_gcs kz_drops kz_cdrops : kz.
Lemma kz_collect s : kz s (collect s).
Proof. unfold collect. ogo. Qed.
#[local] Hint Resolve kz_collect : kz.
Lemma kz_send_data a b c d e s : kz s (fst (send_data a b c d e s)). Proof. unfold send_data. ogo. Qed.
#[local] Hint Resolve kz_send_data : kz.
Lemma kz_send_custom a b c s : kz s (fst (send_custom a b c s)). Proof. unfold send_custom. ogo. Qed.
#[local] Hint Resolve kz_send_custom : kz.
Lemma kz_connecting m : forall s, kz s (drop_connecting m s).
Proof. induction m as [|m IH]; intro s; cbn [drop_connecting]; [apply kz_refl|]. ogo. Qed.
#[local] Hint Resolve kz_connecting : kz.
Lemma kz_finish_connects l : forall s, pend s = l -> kz s (finish_connects l s).
Proof.
  induction l as [|c r IH]; intros s E; cbn [finish_connects]; [apply kz_refl|]. pose proof (kz_take_orc s) as K.
  assert (P : pend (fst (take_orc s)) = c :: r) by (rewrite (keeps2 (f := pend)); exact E). destruct (take_orc s) as [s1 z]. cbn [fst] in *. omvn K s2.
  intro H. revert H. assert (K : kz s2 (connected_cb c z s2)) by (apply kz_connected_cb; rewrite P; now left). intro H.
  refine (kz_trans _ _ _ K _ H). apply IH. rewrite pend_connected, P. apply rm_head. rewrite <- P. now apply W_nd.
Qed.
Lemma kz_finish_connects' s : kz s (finish_connects (pend s) s). Proof. now apply kz_finish_connects. Qed.
#[local] Hint Resolve kz_finish_connects' : kz.
#[local] Hint Resolve kz_finish_connects : kz.
Lemma kz_finish_listens l : forall s, lpend s = l -> kz s (finish_listens l s).
Proof.
  induction l as [|c r IH]; intros s E; cbn [finish_listens]; [apply kz_refl|]. pose proof (kz_take_orc s) as K.
  assert (P : lpend (fst (take_orc s)) = c :: r) by (rewrite (keeps2 (f := lpend)); exact E). destruct (take_orc s) as [s1 z]. cbn [fst] in *. omvn K s2.
  intro H. revert H. assert (K : kz s2 (listened c z s2)) by (apply kz_listened; rewrite P; now left). intro H.
  refine (kz_trans _ _ _ K _ H). apply IH. rewrite lpend_listened, P. apply rm_head. rewrite <- P. now apply W_lnd.
Qed.
Lemma kz_finish_listens' s : kz s (finish_listens (lpend s) s). Proof. now apply kz_finish_listens. Qed.
#[local] Hint Resolve kz_finish_listens' : kz.
#[local] Hint Resolve kz_finish_listens : kz.
Lemma kz_drain m : forall s, kz s (drain m s).
Proof. induction m as [|m IH]; intro s; cbn [drain]; ogo. Qed.
#[local] Hint Resolve kz_drain : kz.
Lemma kz_presets l s : kz s (fold_left (fun s (p : bytes * N) => conn_reset (snd p) s) l s).
Proof. apply (kz_fold (fun s (p : bytes * N) => conn_reset (snd p) s)). intros. apply kz_conn_reset. Qed.
Lemma kz_removals l s : kz s (fold_left (fun s e => emit (TRemoved e) s) l s).
Proof. apply kz_fold. intros. now apply kz_emit. Qed.
Lemma kz_unpings l s : kz s (fold_left (fun s (p : N * N) => clear_ping (snd p) (ep_reset None false (snd p) s)) l s).
Proof. apply kz_fold. intros. ogo. Qed.
#[local] Hint Resolve kz_presets kz_removals kz_unpings : kz.
Lemma kz_reset s : kz s (reset s). Proof. unfold reset. ogo. Qed.
#[local] Hint Resolve kz_reset : kz.
Lemma kz_stop_if_shut s : kz s (stop_if_shut s). Proof. unfold stop_if_shut. ogo. Qed.
#[local] Hint Resolve kz_stop_if_shut : kz.

Lemma kz_open_channels e can l : forall has s, kz s (fst (open_channels e can l has s)).
Proof. induction l as [|x r IH]; intros has s; cbn [open_channels]; ogo. Qed.
#[local] Hint Resolve kz_open_channels : kz.
Lemma kz_welcome c e r s : kz s (welcome c e r s). Proof. unfold welcome. ogo. Qed.
#[local] Hint Resolve kz_welcome : kz.
Lemma kz_reg_body c r s : kz s (fst (reg_body c r s)). Proof. unfold reg_body. ogo. Qed.
#[local] Hint Resolve kz_reg_body : kz.
Lemma kz_reg_req c h r s : kz s (fst (reg_req c h r s)). Proof. unfold reg_req. ogo. Qed.
#[local] Hint Resolve kz_reg_req : kz.
Lemma kz_reg_rsp c h r s : k_kind (cs s c) <> KNone -> kz s (fst (reg_rsp c h r s)).
Proof.
  intro X. unfold reg_rsp, parent_reg_done. assert (K : kz s (emit (TReg c (h_ret h)) s)) by (apply (kz_use c); [exact X|intro x; reflexivity]).
  cbv zeta. omvn K s1. ogo.
Qed.
#[local] Hint Resolve kz_reg_rsp : kz.
Lemma kz_conn_syn c h a s : kz s (fst (conn_syn c h a s)). Proof. unfold conn_syn. ogo. Qed.
#[local] Hint Resolve kz_conn_syn : kz.

Lemma kz_connect_sync x y s : kz s (fst (connect_sync x y s)). Proof. unfold connect_sync. ogo. Qed.
#[local] Hint Resolve kz_connect_sync : kz.
Lemma kz_data_req c h w s : k_kind (cs s c) <> KNone -> kz s (fst (data_req c h w s)).
Proof.
  intro X. unfold data_req. destruct (_ <? _)%Z; [ogo|]. destruct (negb _); [apply kz_refl|]. destruct (_ =? _); [|ogo].
  set (m := {| m_head := h; m_body := BData false w |}).
  assert (K : kz s (emit (TRecv (k_bind (cs s c)) (Some c) m) s)) by (apply (kz_use c); [exact X|intro x; reflexivity]).
  cbv zeta. omvn K s1. ogo.
Qed.
#[local] Hint Resolve kz_data_req : kz.
Lemma kz_dispatch_msg c m s : k_kind (cs s c) <> KNone -> kz s (fst (dispatch_msg c m s)).
Proof.
  intro X. unfold dispatch_msg. cbv zeta. destruct (m_body m) as [[] w|[] q| |[] r| |[] t|]; try solve [ogo].
  all: first [now apply kz_data_rsp | now apply kz_data_req | now apply kz_reg_rsp | apply kz_cmd_rsp; now intros y [= <-] | apply kz_cmd_req; now intros y [= <-]].
Qed.
#[local] Hint Resolve kz_dispatch_msg : kz.
Lemma kz_on_recv c m s : k_kind (cs s c) <> KNone -> kz s (on_recv c m s).
Proof.
  intro X. unfold on_recv. pose proof (kz_dispatch_msg c m s X) as K. destruct (dispatch_msg c m s) as [s1 r]. cbn [fst] in K. omvn K s2. ogo.
Qed.
#[local] Hint Resolve kz_on_recv : kz.
Lemma kz_recv_err c z s : kz s (recv_item c (RErr z) s). Proof. unfold recv_item. ogo. Qed.
Lemma kz_recv_item c i s : k_kind (cs s c) <> KNone -> kz s (recv_item c i s).
Proof.
  intro X. destruct i as [z|k|k m]; [apply kz_recv_err|unfold recv_item; ogo|]. unfold recv_item. cbv zeta. set (s1 := on_c c _ s). assert (K : kz s s1) by (subst s1; ogo).
  eapply kz_trans; [exact K|]. apply kz_on_recv. subst s1. rewrite cs_on_c, N.eqb_refl. exact X.
Qed.
#[local] Hint Resolve kz_recv_item : kz.
Lemma kz_io_step i s : kz s (io_step i s).
Proof.
  unfold io_step. destruct (nst s); try apply kz_refl; (destruct i as [c z|c z|a|c|c z n|c i|]; try solve [ogo];
   [destruct (memb c (pend s)) eqn:M; [apply kz_connected_cb; now apply memb_in|apply kz_refl]
   |destruct (memb c (lpend s)) eqn:M; [apply kz_listened; now apply memb_in|apply kz_refl]
   |destruct (k_kind (cs s c)) eqn:K; try apply kz_refl; apply kz_recv_item; rewrite K; discriminate]).
Qed.
#[local] Hint Resolve kz_io_step : kz.
Lemma kz_ios l s : kz s (fold_left (fun s i => io_step i s) l s). Proof. apply kz_fold. intros. apply kz_io_step. Qed.
Lemma kz_proc_items m c : forall l s, kz s (proc_items m c l s).
Proof.
  induction m as [|m IH]; intros l s; cbn [proc_items]; [apply kz_refl|]. destruct (k_kind (cs s c)) eqn:K; try apply kz_recv_err.
  assert (X : forall i, kz s (recv_item c i s)) by (intro i; apply kz_recv_item; rewrite K; discriminate).
  destruct l as [|i r]; [apply kz_refl|]. destruct i; [apply X|eapply kz_trans; [apply X|apply IH]..].
Qed.
#[local] Hint Resolve kz_ios kz_proc_items : kz.
Lemma kz_proc_one s p : kz s (proc_one s p). Proof. unfold proc_one. ogo. Qed.
Lemma kz_procs l s : kz s (fold_left proc_one l s). Proof. apply kz_fold. intros. apply kz_proc_one. Qed.
#[local] Hint Resolve kz_procs : kz.
Lemma kz_parent_op now s : kz s (parent_op now s). Proof. unfold parent_op. ogo. Qed.
#[local] Hint Resolve kz_parent_op : kz.
Lemma kz_start now s : kz s (fst (start now s)). Proof. unfold start. ogo. Qed.
Lemma kz_poll l s : kz s (poll l s). Proof. unfold poll. ogo. Qed.
Lemma kz_proc k now feed s s' : proc k now feed s = Some s' -> kz s s'.
Proof.
  unfold proc. cbv zeta. set (s1 := if sec s <? now then set_sec now s else s).
  assert (K : kz s s1) by (subst s1; ogo). intro X.
  refine (kz_trans _ _ _ K _). clearbody s1. clear K. rename s1 into s2. revert X.
  set (s3 := parent_op now _). assert (K : kz s2 s3) by (subst s3; ogo). clearbody s3.
  assert (Y : forall s5, ping_loop k now None s3 = Some s5 -> kz s2 (stop_if_shut (collect (fst (dispatch_self s5))))).
  { intros s5 E. apply kz_ping_loop in E. omvn K s4. omvn E s6. ogo. }
  assert (Z : kz s2 (reset (fst (dispatch_self s2)))) by ogo.
  destruct (nst s2); [intros [= <-]; apply kz_refl|..];
    (destruct (fl_shut s2); [intros [= <-]; exact Z|]; destruct (ping_loop k now None s3) as [s5|]; [|discriminate]; intros [= <-]; auto).
Qed.
Lemma kz_init i x s : kz s (fst (init i x s)).
Proof.
  unfold init. set (s1 := match nst s with NCreated => s | _ => reset s end).
  assert (K : kz s s1) by (unfold s1; destruct (nst s); ogo). clearbody s1. omvn K s2. ogo.
Qed.
Lemma kz_step k ev s s' : step k ev s = Some s' -> kz s s'.
Proof.
  unfold step, step_ret.
  destruct ev as [i x|now|a|a|a i|i|to ty b w q|to l q|z| |now feed|l|i|o l]; cbn [option_map fst];
    try (intros [= <-]; solve [apply kz_init | apply kz_start | apply kz_poll | apply kz_set_salts | ogo]).
  destruct (proc k now feed s) as [s1|] eqn:E; [|discriminate]. intros [= <-]. eapply kz_proc; eauto.
Qed.
Lemma W_new : W new_node.
Proof. constructor; cbn; try contradiction; try constructor. Qed.
Lemma kz_run k evs : forall s s', run k evs s = Some s' -> kz s s'.
Proof.
  induction evs as [|ev r IH]; intros s s' E; cbn [run] in E; [injection E as <-; apply kz_refl|].
  destruct (step k ev s) as [s1|] eqn:S; [|discriminate]. eapply kz_trans; [eapply kz_step; eauto|eauto].
Qed.
(** Where every connection of a node stands. *)
Theorem stands s : reachable s -> W s /\ forall c, exists p q, (p = Fresh \/ p = Gone) /\ goes c p (log s) q /\ below q (ph s c).
Proof.
  intros (k & evs & R). destruct (kz_run k evs _ _ R W_new) as [H (l & E & G)]. split; [exact H|]. intro c. destruct (G c) as (q & X & L).
  exists (ph new_node c), q. cbn [log new_node] in E. rewrite app_nil_r in E. subst l. repeat split; trivial.
  unfold ph. cbn [new_node cs no_conn k_kind]. destruct (_ || _); auto.
Qed.
