(** Every small step keeps the invariant. *)
From Verif Require Import Base Subnet Route Address NodeTypes NodeConn NodeCore NodeFrame NodeReset NodeInv.
Local Open Scope N_scope.
Ltac Zify.zify_post_hook ::= idtac.

Ltac fr1 := lazymatch goal with
  | |- ?f (fst (?h ?s)) = ?r => exact (keeps2 (f := f) (h := h) s)
  | |- ?f (?g ?s) = ?r => exact (keeps (f := f) (g := g) s)
  end.

Lemma keep_nst v s : v <> NCreated -> Inv s -> Inv (set_nst v s).
Proof. intros V H. apply (Inv_calm s); try reflexivity; auto; [apply sub_refl|]. intro X. now elim V. Qed.
Lemma keep_act s : Inv s -> Inv (on_actived s).
Proof.
  intros H. unfold on_actived. apply (keep_nst NRunning) in H; [|discriminate].
  set (s1 := set_nst NRunning s) in *. clearbody s1. destruct (fl_act s1); [exact H|].
  apply (Inv_calm s1); try reflexivity; auto; [apply sub_refl|].
  intros e [[I|I]|[I|I]]; auto; discriminate.
Qed.
Lemma keep_shut z s : Inv s -> Inv (shutdown z s).
Proof.
  intros H. apply (Inv_calm s); trivial; try fr1.
  - rewrite (keeps (f := connecting)). apply sub_refl.
  - apply calm_created, calm_shutdown.
  - intro e. apply calm_log, calm_shutdown.
Qed.
Lemma keep_emit t s : silent t -> Inv s -> Inv (emit t s).
Proof.
  intros Q H. apply (Inv_calm s); try reflexivity; auto; [apply sub_refl|].
  intros e [[I|I]|[I|I]]; auto; subst; contradiction.
Qed.
Lemma keep_timers l s : sub l (connecting s) -> Inv s -> Inv (set_connecting l s).
Proof. intros S H. apply (Inv_calm s); try reflexivity; auto. Qed.
Lemma keep_rm_timer c s : Inv s -> Inv (rm_timer c s).
Proof.
  intros H. apply (Inv_calm s); trivial; try fr1.
  - rewrite timer_rm_timer. apply sub_filter.
  - apply calm_created, calm_rm_timer.
  - intro e. apply calm_log, calm_rm_timer.
Qed.

Lemma keep_create s : Inv s -> Inv (fst (conn_create s)).
Proof.
  intros H.
  assert (C : forall x, cs (fst (conn_create s)) x = if x =? nextc s then no_conn else cs s x).
  { intro x. unfold conn_create. cbn [fst]. rewrite (keeps (f := cs) (g := add_timer _)). reflexivity. }
  assert (NC : nextc (fst (conn_create s)) = nextc s + 1).
  { unfold conn_create. cbn [fst]. now rewrite (keeps (f := nextc) (g := add_timer _)). }
  assert (T : connecting (fst (conn_create s)) = connecting s \/
              exists t, connecting (fst (conn_create s)) = connecting s ++ [(t, nextc s)]).
  { unfold conn_create. cbn [fst]. unfold add_timer. destruct (nst _); cbn; eauto. }
  assert (E : es (fst (conn_create s)) = es s) by fr1.
  assert (NE : nexte (fst (conn_create s)) = nexte s) by fr1.
  assert (F1 : self (fst (conn_create s)) = self s) by fr1.
  assert (F2 : parent (fst (conn_create s)) = parent s) by fr1.
  assert (F3 : routes (fst (conn_create s)) = routes s) by fr1.
  assert (F4 : gce (fst (conn_create s)) = gce s) by fr1.
  assert (F5 : pend (fst (conn_create s)) = pend s) by fr1.
  assert (F6 : lpend (fst (conn_create s)) = lpend s) by fr1.
  assert (F7 : pings (fst (conn_create s)) = pings s) by fr1.
  assert (F8 : nst (fst (conn_create s)) = nst s) by fr1.
  assert (F9 : log (fst (conn_create s)) = log s) by fr1.
  set (s' := fst (conn_create s)) in *. clearbody s'.
  assert (ID : my_id s' = my_id s) by (unfold my_id; now rewrite F1).
  assert (FR : k_bind (cs s (nextc s)) = None) by (apply (I_freshc s H (nextc s)); lia).
  destruct H; constructor; rewrite ?E, ?NE, ?F2, ?F3, ?F5, ?F6, ?F7, ?F8, ?F9, ?ID; trivial.
  - intros c e. rewrite C. destruct (N.eqb_spec c (nextc s)) as [->|]; [|apply I_bind].
    rewrite <- I_bind, FR. reflexivity.
  - intros c. rewrite C. destruct (N.eqb_spec c (nextc s)) as [->|]; [|apply I_conn].
    repeat split; discriminate.
  - intros c L. rewrite C. destruct (N.eqb_spec c (nextc s)) as [->|]; [split; reflexivity|]. apply I_freshc. lia.
  - intros x X. unfold alive. rewrite NE, E. apply I_tab. unfold tabled in *. now rewrite F1, F2, F3, F4 in X.
  - intros c I. destruct (I_pendc c I) as [L K]. split; [lia|]. rewrite C.
    destruct (N.eqb_spec c (nextc s)) as [->|]; [reflexivity|exact K].
  - destruct T as [-> | [t ->]]; [trivial|]. rewrite map_app. cbn [map snd].
    assert (G : forall l, NoDup l -> (forall x, In x l -> x < nextc s) -> NoDup (l ++ [nextc s])).
    { clear. induction l as [|a l IH]; intros ND L; cbn; [repeat constructor; auto|].
      inversion ND; subst. constructor; [|apply IH; [trivial|intros; apply L; now right]].
      rewrite in_app_iff. intros [I|[I|[]]]; [contradiction|]. specialize (L a (or_introl eq_refl)). lia. }
    apply G; [trivial|]. intros x I. apply in_map_iff in I as (p & <- & I). now apply I_conningc.
  - intros p I. rewrite NC. destruct T as [T | [t T]]; rewrite T in I.
    + apply I_conningc in I. lia.
    + apply in_app_or in I as [I|[<-|[]]]; [apply I_conningc in I; lia|cbn; lia].
Qed.

Lemma keep_conn c f s :
  k_bind (f (cs s c)) = k_bind (cs s c) -> conn_ok (f (cs s c)) ->
  (In c (pend s ++ lpend s) \/ nextc s <= c -> k_kind (f (cs s c)) = KNone) -> Inv s -> Inv (on_c c f s).
Proof.
  intros B K P H. apply (Inv_conn s _ c (f (cs s c))); trivial; try reflexivity.
Qed.
(** What sending does to the connection. *)
Lemma push_cs c m s : exists k, (forall x, cs (fst (push c m s)) x = if x =? c then k else cs s x) /\
  k_bind k = k_bind (cs s c) /\ k_st k = k_st (cs s c) /\ k_kind k = k_kind (cs s c).
Proof.
  unfold push. cbv zeta. set (n := x_size (cf s) m). clearbody n.
  set (k1 := set_k_start (bump (k_start (cs s c)) n) (cs s c)).
  assert (K1 : k_bind k1 = k_bind (cs s c) /\ k_st k1 = k_st (cs s c) /\ k_kind k1 = k_kind (cs s c)) by (repeat split).
  set (s1 := on_c c _ s).
  assert (E1 : forall x, cs s1 x = if x =? c then k1 else cs s x) by reflexivity.
  clearbody s1 k1. destruct K1 as (A1 & A2 & A3).
  assert (G : forall s2 f, cs s2 = cs s1 -> (forall k, k_bind (f k) = k_bind k /\ k_st (f k) = k_st k /\ k_kind (f k) = k_kind k) ->
    exists k, (forall x, cs (on_c c f s2) x = if x =? c then k else cs s x) /\
      k_bind k = k_bind (cs s c) /\ k_st k = k_st (cs s c) /\ k_kind k = k_kind (cs s c)).
  { intros s2 f E2 F. exists (f k1). destruct (F k1) as (B1 & B2 & B3).
    split; [|repeat split; congruence]. intro x. rewrite cs_on_c, !E2, !E1, N.eqb_refl.
    destruct (x =? c); reflexivity. }
  assert (G0 : forall s2, cs s2 = cs s1 -> exists k, (forall x, cs s2 x = if x =? c then k else cs s x) /\
      k_bind k = k_bind (cs s c) /\ k_st k = k_st (cs s c) /\ k_kind k = k_kind (cs s c)).
  { intros s2 E2. exists k1. rewrite E2. auto. }
  destruct (k_st (cs s1 c)); try (cbn [fst]; apply G; [reflexivity|intros []; repeat split]).
  all: destruct (k_kind (cs s1 c)); try (cbn [fst]; apply G; [reflexivity|intros []; repeat split]).
  all: pose proof (keeps2 (f := cs) (h := take_orc) s1) as TO; destruct (take_orc s1) as [s2 r]; cbn [fst] in TO |- *;
    destruct (r <? 0)%Z; try (apply G0; exact TO); (apply G; [exact TO|intros []; repeat split]).
Qed.
Lemma push_log c m s : log (fst (push c m s)) = log s \/ exists r, log (fst (push c m s)) = TSend c m (x_size (cf s) m) r :: log s.
Proof.
  unfold push. cbv zeta. set (s1 := on_c c _ s). assert (L1 : log s1 = log s) by reflexivity. clearbody s1.
  destruct (k_st (cs s1 c)); try (left; exact L1).
  all: destruct (k_kind (cs s1 c)); try (left; exact L1).
  all: pose proof (keeps2 (f := log) (h := take_orc) s1) as TO; destruct (take_orc s1) as [s2 r]; cbn [fst] in TO |- *;
    right; exists r; destruct (r <? 0)%Z; cbn [log on_c set_cs emit set_log]; congruence.
Qed.
Lemma conn_ok_same k k' : k_bind k' = k_bind k -> k_st k' = k_st k -> k_kind k' = k_kind k -> conn_ok k -> conn_ok k'.
Proof. unfold conn_ok. now intros -> -> ->. Qed.
Lemma keep_push c m s : Inv s -> Inv (fst (push c m s)).
Proof.
  intros H. destruct (push_cs c m s) as (k & EC & B & S & K).
  apply (Inv_conn s _ c k); trivial; try fr1.
  - apply (conn_ok_same (cs s c)); trivial. apply (I_conn s H).
  - rewrite K. intros [I|I]; [now apply (I_pendc s H)|now apply (I_freshc s H)].
  - intros e I. destruct (push_log c m s) as [E | [r E]]; rewrite E in I; [trivial|].
    destruct I as [[I|I]|[I|I]]; auto; discriminate.
Qed.
Lemma keep_written c z n s : Inv s -> Inv (written c z n s).
Proof.
  intros H. unfold written. destruct (linked s c); [|exact H].
  assert (H1 : Inv (emit (TWrote c z n) s)).
  { apply (Inv_calm s); try reflexivity; auto; [apply sub_refl|].
    intros e [[I|I]|[I|I]]; auto; discriminate. }
  cbv zeta. set (s1 := emit (TWrote c z n) s) in *. clearbody s1.
  destruct (z =? 0)%Z; apply keep_conn; trivial; try reflexivity.
  1,3: apply (conn_ok_same (cs s1 c)); trivial; apply (I_conn s1 H1).
  all: intros [I|I]; [now apply (I_pendc s1 H1)|now apply (I_freshc s1 H1)].
Qed.

(** Resetting an endpoint. *)
Lemma keep_ereset g e s : 0 < e < nexte s -> Inv s -> Inv (ep_reset None g e s).
Proof.
  intros R H.
  assert (EE : forall x, es (ep_reset None g e s) x = if x =? e then stripped (es s e) else es s x)
    by (intro; apply es_ep_reset).
  assert (EC : forall x, cs (ep_reset None g e s) x = if memb x (conns (es s e)) then resetted (cs s x) else cs s x).
  { intro x. rewrite cs_ep_reset.
    assert (M : memb x (conns (es s e)) = opt_eqb (d_ctrl (es s e)) (Some x) || memb x (d_data (es s e))).
    { unfold conns. destruct (d_ctrl (es s e)); [|reflexivity]. cbn [opt_eqb]. rewrite N.eqb_sym. reflexivity. }
    rewrite M. clear M. destruct (memb x (d_data (es s e))), (opt_eqb (d_ctrl (es s e)) (Some x)); reflexivity. }
  assert (T : sub (connecting (ep_reset None g e s)) (connecting s)) by (rewrite timer_ep_reset; apply sub_filter).
  assert (P : pings (ep_reset None g e s) = filter (fun p => negb (snd p =? e)) (pings s)).
  { rewrite pings_ep_reset. destruct (d_timer (es s e)) eqn:D; [reflexivity|]. symmetry. apply filter_true.
    intros p I. destruct (N.eqb_spec (snd p) e) as [X|]; [|reflexivity]. exfalso.
    assert (Y : In e (map snd (pings s))) by (rewrite <- X; now apply in_map).
    apply (I_timer s H) in Y. congruence. }
  assert (G : forall x, In x (gce (ep_reset None g e s)) -> In x (gce s) \/ x = d_ep (es s e)).
  { intros x I. destruct (gce_ep_reset None g e s) as [X|X]; rewrite X in I; [auto|].
    apply in_app_or in I as [I|[<-|[]]]; auto. }
  pose proof (calm_ep_reset None g e s) as CA.
  assert (F0 : nextc (ep_reset None g e s) = nextc s) by fr1.
  assert (NE : nexte (ep_reset None g e s) = nexte s) by fr1.
  assert (F1 : self (ep_reset None g e s) = self s) by fr1.
  assert (F2 : parent (ep_reset None g e s) = parent s) by fr1.
  assert (F3 : routes (ep_reset None g e s) = routes s) by fr1.
  assert (F5 : pend (ep_reset None g e s) = pend s) by fr1.
  assert (F6 : lpend (ep_reset None g e s) = lpend s) by fr1.
  set (s' := ep_reset None g e s) in *. clearbody s'.
  assert (ID : my_id s' = my_id s) by (unfold my_id; now rewrite F1).
  pose proof (heap_strip s _ _ e H EC EE) as HB.
  destruct H; constructor; rewrite ?F0, ?NE, ?F2, ?F3, ?F5, ?F6, ?ID; trivial.
  - intro y. rewrite EE. destruct (y =? e); [constructor|trivial].
  - intro c. rewrite EC. destruct (memb c _); [now apply conn_ok_resetted|trivial].
  - intros c L. rewrite EC. destruct (memb c _); [|auto]. split; [reflexivity|apply kind_resetted; now apply I_freshc].
  - intros y L. rewrite EE. destruct (y =? e); [split; reflexivity|auto].
  - intros y L. rewrite EE. destruct (N.eqb_spec y e) as [->|]; [now apply I_ref|auto].
  - intros x X. assert (A : alive s x).
    { destruct X as [X|[X|[X|X]]]; [apply I_tab; left; congruence|apply I_tab; right; left; congruence|
        apply I_tab; right; right; left; congruence|].
      apply G in X as [X| ->]; [apply I_tab; now right; right; right|].
      unfold alive. rewrite (I_ref e R). auto. }
    unfold alive in *. rewrite NE, EE. destruct A as [A1 A2]. split; [exact A1|].
    destruct (N.eqb_spec (e_ref x) e) as [X'|]; [|exact A2]. cbn. now rewrite <- X'.
  - intros c I. destruct (I_pendc c I) as [L K]. split; [exact L|]. rewrite EC.
    destruct (memb c _); [now apply kind_resetted|exact K].
  - rewrite P. now apply nodup_ping_filter.
  - intros y. rewrite EE, P, in_ping_filter, <- I_timer. destruct (N.eqb_spec y e) as [->|]; cbn; intuition congruence.
  - eapply sub_nodup; [apply sub_map, T|trivial].
  - intros p I. apply I_conningc. eapply sub_in; eauto.
  - intro C. apply I_created. eapply calm_created; eauto.
  - intros y I. eapply I_log, calm_log; eauto.
Qed.

(** Resetting a connection. *)
Lemma in_victims s c x e : k_bind (cs s c) = Some e -> drops (es s e) c = true ->
  In c (conns (es s e)) -> In x (victims s c) <-> In x (conns (es s e)).
Proof. intros B D I. unfold victims. rewrite B, D. cbn. intuition. now subst. Qed.
Lemma conns_rm d c : NoDup (conns d) -> drops d c = false -> In c (conns d) ->
  NoDup (conns (set_d_data (rm c (d_data d)) d)) /\
  (forall x, In x (conns (set_d_data (rm c (d_data d)) d)) <-> In x (conns d) /\ x <> c).
Proof.
  intros ND D I. unfold drops in D. apply Bool.orb_false_iff in D as [D1 _].
  assert (C : d_ctrl d <> Some c).
  { intro X. apply (opt_eqb_true (d_ctrl d)) in X. congruence. }
  rewrite set_d_data_conns. unfold conns in *. destruct (d_ctrl d) as [k|].
  - inversion ND; subst. split.
    + constructor; [rewrite in_rm; tauto|]. now apply nodup_filter.
    + intro x. cbn [In]. rewrite in_rm. intuition congruence.
  - split; [now apply nodup_filter|]. intro x. apply in_rm.
Qed.
Lemma keep_creset c s : Inv s -> Inv (conn_reset c s).
Proof.
  intros H. pose proof (Inv_listed s H) as LI.
  assert (EC := fun x => cs_conn_reset x c s LI).
  assert (EE := fun x => es_conn_reset x c s LI).
  assert (T : sub (connecting (conn_reset c s)) (connecting s)) by (rewrite (timer_conn_reset c s LI); apply sub_filter).
  assert (P := pings_conn_reset c s LI).
  assert (G := gce_conn_reset c s LI).
  pose proof (calm_conn_reset c s) as CA.
  assert (F0 : nextc (conn_reset c s) = nextc s) by fr1.
  assert (NE : nexte (conn_reset c s) = nexte s) by fr1.
  assert (F1 : self (conn_reset c s) = self s) by fr1.
  assert (F2 : parent (conn_reset c s) = parent s) by fr1.
  assert (F3 : routes (conn_reset c s) = routes s) by fr1.
  assert (F5 : pend (conn_reset c s) = pend s) by fr1.
  assert (F6 : lpend (conn_reset c s) = lpend s) by fr1.
  set (s' := conn_reset c s) in *. clearbody s'.
  assert (ID : my_id s' = my_id s) by (unfold my_id; now rewrite F1).
  (* the part that depends on the binding *)
  assert (X : (forall x e, k_bind (cs s' x) = Some e <-> In x (conns (es s' e))) /\
              (forall e, NoDup (conns (es s' e))) /\
              (forall e, d_timer (es s' e) = true <-> In e (map snd (pings s'))) /\
              NoDup (map snd (pings s')) /\
              (forall e, d_ep (es s' e) = d_ep (es s e)) /\
              (forall e, ~ 0 < e < nexte s -> conns (es s' e) = [] /\ d_timer (es s' e) = false)).
  { destruct (k_bind (cs s c)) as [e|] eqn:KB.
    - pose proof (proj1 (I_bind s H c e) KB) as IC.
      destruct (drops (es s e) c) eqn:D.
      + assert (EC' : forall x, cs s' x = if memb x (conns (es s e)) then resetted (cs s x) else cs s x).
        { intro x. rewrite EC. assert (V : memb x (victims s c) = memb x (conns (es s e))).
          { apply Bool.eq_iff_eq_true. rewrite !memb_in. now apply in_victims. }
          now rewrite V. }
        split; [exact (heap_strip s _ _ e H EC' EE)|].
        split; [intro y; rewrite EE; destruct (y =? e); [constructor|apply (I_nodup s H)]|].
        assert (P' : pings s' = filter (fun p => negb (snd p =? e)) (pings s)).
        { rewrite P. cbn [andb]. destruct (d_timer (es s e)) eqn:DT; [reflexivity|]. symmetry. apply filter_true.
          intros p I. destruct (N.eqb_spec (snd p) e) as [X|]; [|reflexivity]. exfalso.
          assert (Y : In e (map snd (pings s))) by (rewrite <- X; now apply in_map).
          apply (I_timer s H) in Y. congruence. }
        split; [|split; [|split]].
        * intros y. rewrite EE, P', in_ping_filter, <- (I_timer s H). destruct (N.eqb_spec y e) as [->|]; cbn; intuition congruence.
        * rewrite P'. apply nodup_ping_filter, (I_ping s H).
        * intro y. rewrite EE. destruct (N.eqb_spec y e) as [->|]; reflexivity.
        * intros y L. rewrite EE. destruct (y =? e); [split; reflexivity|now apply (I_freshe s H)].
      + assert (EC' : forall x, cs s' x = if x =? c then resetted (cs s x) else cs s x).
        { intro x. rewrite EC. unfold victims. rewrite KB, D. cbn [memb existsb]. now rewrite Bool.orb_false_r. }
        cbn [andb] in P.
        destruct (conns_rm (es s e) c (I_nodup s H e) D IC) as [N1 N2].
        split; [|split; [|split; [|split; [|split]]]].
        * intros x y. rewrite EC', EE. destruct (N.eqb_spec x c) as [->|NX].
          -- rewrite bind_resetted. split; [discriminate|]. destruct (N.eqb_spec y e) as [->|NY].
             ++ intro I. apply N2 in I as [_ X]. congruence.
             ++ intro I. apply (I_bind s H) in I. congruence.
          -- destruct (N.eqb_spec y e) as [->|NY]; [|apply (I_bind s H)].
             rewrite N2, <- (I_bind s H). intuition.
        * intro y. rewrite EE. destruct (y =? e); [exact N1|apply (I_nodup s H)].
        * intro y. rewrite EE, P, <- (I_timer s H). destruct (N.eqb_spec y e) as [->|]; reflexivity.
        * rewrite P. apply (I_ping s H).
        * intro y. rewrite EE. destruct (N.eqb_spec y e) as [->|]; reflexivity.
        * intros y L. rewrite EE. destruct (N.eqb_spec y e) as [->|]; [|now apply (I_freshe s H)].
          destruct (I_freshe s H e L) as [X _]. rewrite X in IC. destruct IC.
    - assert (EC' : forall x, cs s' x = if x =? c then resetted (cs s x) else cs s x).
      { intro x. rewrite EC. unfold victims. rewrite KB. cbn [memb existsb]. now rewrite Bool.orb_false_r. }
      split; [|split; [|split; [|split; [|split]]]].
      + intros x y. rewrite EC', EE, <- (I_bind s H). destruct (N.eqb_spec x c) as [->|]; [|reflexivity].
        rewrite bind_resetted. intuition congruence.
      + intro y. rewrite EE. apply (I_nodup s H).
      + intro y. rewrite EE, P. apply (I_timer s H).
      + rewrite P. apply (I_ping s H).
      + intro y. now rewrite EE.
      + intros y. rewrite EE. apply (I_freshe s H). }
  destruct X as (X1 & X2 & X3 & X4 & X5 & X6).
  destruct H; constructor; rewrite ?F0, ?NE, ?F2, ?F3, ?F5, ?F6, ?ID; trivial.
  - intro x. rewrite EC. destruct (memb x _); [now apply conn_ok_resetted|trivial].
  - intros x L. rewrite EC. destruct (memb x _); [|auto]. split; [reflexivity|apply kind_resetted; now apply I_freshc].
  - intros y L. rewrite X5. auto.
  - intros x X. assert (A : alive s x).
    { destruct X as [X|[X|[X|X]]]; [apply I_tab; left; congruence|apply I_tab; right; left; congruence|
        apply I_tab; right; right; left; congruence|].
      destruct G as [G|(e & KB & G)]; rewrite G in X; [apply I_tab; now right; right; right|].
      apply in_app_or in X as [X|[<-|[]]]; [apply I_tab; now right; right; right|].
      assert (R : 0 < e < nexte s).
      { apply I_bind in KB. destruct (N.lt_ge_cases 0 e) as [A|A]; [destruct (N.lt_ge_cases e (nexte s)) as [A'|A']; [now split|]|].
        all: assert (F : ~ 0 < e < nexte s) by lia; destruct (I_freshe e F) as [FF _]; rewrite FF in KB; destruct KB. }
      unfold alive. rewrite (I_ref e R). auto. }
    unfold alive in *. rewrite NE, X5. exact A.
  - intros x I. destruct (I_pendc x I) as [L K]. split; [exact L|]. rewrite EC.
    destruct (memb x _); [now apply kind_resetted|exact K].
  - eapply sub_nodup; [apply sub_map, T|trivial].
  - intros p I. apply I_conningc. eapply sub_in; eauto.
  - intro C. apply I_created. eapply calm_created; eauto.
  - intros y I. eapply I_log, calm_log; eauto.
Qed.

(** Binding a connection. *)
Lemma add_connection_bound e c b s x : k_bind (cs s c) = Some x -> fst (add_connection e c b s) = s.
Proof. intro B. unfold add_connection. now rewrite B. Qed.
Lemma add_connection_spec e c b s : k_bind (cs s c) = None ->
  (forall x, cs (fst (add_connection e c b s)) x =
     if x =? c then set_k_bind (Some e) (match k_st (cs s c) with Handshaking => set_k_st Connected (cs s c) | _ => cs s c end)
     else cs s x) /\
  (forall y, es (fst (add_connection e c b s)) y =
     if y =? e then (if b || match d_ctrl (es s e) with Some _ => true | None => false end
                     then set_d_data (d_data (es s e) ++ [c]) (es s e) else set_d_ctrl (Some c) (es s e))
     else es s y) /\
  sub (connecting (fst (add_connection e c b s))) (connecting s) /\
  calm s (fst (add_connection e c b s)).
Proof.
  intro B. unfold add_connection. rewrite B. cbv zeta.
  set (s1 := if b || match d_ctrl (es s e) with Some _ => true | None => false end
             then on_e e (fun d => set_d_data (d_data d ++ [c]) d) s else on_e e (set_d_ctrl (Some c)) s).
  assert (C1 : cs s1 = cs s) by (unfold s1; now destruct (_ || _)).
  assert (T1 : connecting s1 = connecting s) by (unfold s1; now destruct (_ || _)).
  assert (A1 : calm s s1) by (unfold s1; destruct (_ || _); now apply calm_same).
  assert (E1 : forall y, es s1 y = if y =? e then (if b || match d_ctrl (es s e) with Some _ => true | None => false end
                     then set_d_data (d_data (es s e) ++ [c]) (es s e) else set_d_ctrl (Some c) (es s e))
     else es s y).
  { intro y. unfold s1. destruct (_ || _); reflexivity. }
  clearbody s1.
  set (s2 := on_c c (set_k_bind (Some e)) s1).
  assert (C2 : forall x, cs s2 x = if x =? c then set_k_bind (Some e) (cs s c) else cs s x).
  { intro x. unfold s2. rewrite cs_on_c, !C1. reflexivity. }
  assert (T2 : connecting s2 = connecting s) by exact T1.
  assert (E2 : es s2 = es s1) by reflexivity.
  assert (A2 : calm s s2) by (eapply calm_trans; [exact A1|now apply calm_same]).
  clearbody s2. rewrite C2, N.eqb_refl. cbn [k_st set_k_bind fst].
  destruct (k_st (cs s c)).
  3:{ repeat split.
      - intro x. rewrite cs_set_status, !C2, N.eqb_refl. destruct (x =? c); reflexivity.
      - intro y. rewrite (keeps (f := es) (g := set_status c Connected)), E2. apply E1.
      - unfold set_status. destruct (cst_eqb _ _); [rewrite T2; apply sub_refl|].
        rewrite timer_rm_timer. cbn [connecting on_c set_cs]. rewrite T2. apply sub_filter.
      - exact (proj1 (calm_trans _ _ _ A2 (calm_set_status c Connected s2))).
      - exact (proj2 (calm_trans _ _ _ A2 (calm_set_status c Connected s2))). }
  all: split; [exact C2|split; [intro y; rewrite E2; apply E1|split; [rewrite T2; apply sub_refl|exact A2]]].
Qed.
Lemma conn_ok_bound k e : conn_ok k ->
  conn_ok (set_k_bind (Some e) (match k_st k with Handshaking => set_k_st Connected k | _ => k end)).
Proof.
  intros (A & B & C & D). unfold conn_ok. destruct (k_st k) eqn:E; cbn; rewrite ?E; repeat split; try congruence; now apply D.
Qed.
Lemma nodup_snoc {A} (l : list A) x : NoDup l -> ~ In x l -> NoDup (l ++ [x]).
Proof.
  induction l as [|a l IH]; intros ND NI; cbn; [constructor; [auto|constructor]|].
  inversion ND; subst. constructor; [|apply IH; trivial; intro; apply NI; now right].
  rewrite in_app_iff. intros [I|[I|[]]]; [contradiction|]. apply NI. now left.
Qed.
Lemma conns_added d c b : ~ In c (conns d) -> NoDup (conns d) ->
  let d' := if b || match d_ctrl d with Some _ => true | None => false end
            then set_d_data (d_data d ++ [c]) d else set_d_ctrl (Some c) d in
  NoDup (conns d') /\ (forall x, In x (conns d') <-> x = c \/ In x (conns d)) /\
  d_timer d' = d_timer d /\ d_ep d' = d_ep d.
Proof.
  intros NI ND. cbv zeta. unfold conns in *. destruct (d_ctrl d) as [k|] eqn:E.
  - rewrite Bool.orb_true_r. cbn [d_ctrl d_data d_timer d_ep set_d_data set_d_ctrl]. rewrite E. split; [|split; [|split; reflexivity]].
    + inversion ND; subst. constructor; [|apply nodup_snoc; trivial; intro; apply NI; now right].
      rewrite in_app_iff. intros [I|[I|[]]]; [contradiction|]. apply NI. left. auto.
    + intro x. cbn [In]. rewrite in_app_iff. cbn [In]. intuition.
  - destruct b; cbn [orb d_ctrl d_data d_timer d_ep set_d_data set_d_ctrl]; rewrite ?E.
    + split; [now apply nodup_snoc|split; [|split; reflexivity]]. intro x. rewrite in_app_iff. cbn. intuition.
    + split; [now constructor|split; [|split; reflexivity]]. intro x. cbn. intuition.
Qed.
Lemma keep_addconn e c b s : 0 < e < nexte s -> c < nextc s -> Inv s -> Inv (fst (add_connection e c b s)).
Proof.
  intros R LC H. destruct (k_bind (cs s c)) as [x|] eqn:B.
  { now rewrite (add_connection_bound e c b s x B). }
  destruct (add_connection_spec e c b s B) as (EC & EE & T & CA).
  assert (F0 : nextc (fst (add_connection e c b s)) = nextc s) by fr1.
  assert (NE : nexte (fst (add_connection e c b s)) = nexte s) by fr1.
  assert (F1 : self (fst (add_connection e c b s)) = self s) by fr1.
  assert (F2 : parent (fst (add_connection e c b s)) = parent s) by fr1.
  assert (F3 : routes (fst (add_connection e c b s)) = routes s) by fr1.
  assert (F4 : gce (fst (add_connection e c b s)) = gce s) by fr1.
  assert (F5 : pend (fst (add_connection e c b s)) = pend s) by fr1.
  assert (F6 : lpend (fst (add_connection e c b s)) = lpend s) by fr1.
  assert (F7 : pings (fst (add_connection e c b s)) = pings s) by fr1.
  set (s' := fst (add_connection e c b s)) in *. clearbody s'.
  assert (ID : my_id s' = my_id s) by (unfold my_id; now rewrite F1).
  assert (NI : forall y, ~ In c (conns (es s y))).
  { intros y I. apply (I_bind s H) in I. congruence. }
  destruct (conns_added (es s e) c b (NI e) (I_nodup s H e)) as (D1 & D2 & D3 & D4).
  set (d' := if b || match d_ctrl (es s e) with Some _ => true | None => false end
             then set_d_data (d_data (es s e) ++ [c]) (es s e) else set_d_ctrl (Some c) (es s e)) in *. clearbody d'.
  assert (DE : forall y, d_ep (es s' y) = d_ep (es s y)).
  { intro y. rewrite EE. destruct (N.eqb_spec y e) as [->|]; trivial. }
  destruct H; constructor; rewrite ?F0, ?NE, ?F2, ?F3, ?F5, ?F6, ?F7, ?ID; trivial.
  - intros x y. rewrite EC, EE. destruct (N.eqb_spec x c) as [->|NX].
    + cbn [k_bind set_k_bind]. destruct (N.eqb_spec y e) as [->|NY].
      * rewrite D2. intuition.
      * split; [intros [= ->]; congruence|]. intro I. now apply NI in I.
    + destruct (N.eqb_spec y e) as [->|NY]; [|apply I_bind]. rewrite D2, I_bind. intuition congruence.
  - intro y. rewrite EE. destruct (y =? e); trivial.
  - intro x. rewrite EC. destruct (N.eqb_spec x c) as [->|]; [apply conn_ok_bound|]; apply I_conn.
  - intros x L. rewrite EC. destruct (N.eqb_spec x c) as [->|]; [lia|auto].
  - intros y L. rewrite EE. destruct (N.eqb_spec y e) as [->|]; [contradiction|auto].
  - intros y L. rewrite DE. auto.
  - intros x X. unfold alive. rewrite NE, DE. apply I_tab. unfold tabled in *. now rewrite F1, F2, F3, F4 in X.
  - intros x I. destruct (I_pendc x I) as [L K]. split; [exact L|]. rewrite EC.
    destruct (N.eqb_spec x c) as [->|]; [|exact K]. cbn. destruct (k_st (cs s c)); exact K.
  - intros y. rewrite EE, <- I_timer. destruct (N.eqb_spec y e) as [->|]; [now rewrite D3|reflexivity].
  - eapply sub_nodup; [apply sub_map, T|trivial].
  - intros p I. apply I_conningc. eapply sub_in; eauto.
  - intro C. apply I_created. eapply calm_created; eauto.
  - intros y I. eapply I_log, calm_log; eauto.
Qed.

(** Endpoints. *)
Lemma Inv_ep s s' e d : Inv s ->
  (forall x, es s' x = if x =? e then d else es s x) ->
  d_ep d = d_ep (es s e) -> conns d = conns (es s e) ->
  (forall x, (if x =? e then d_timer d else d_timer (es s x)) = true <-> In x (map snd (pings s'))) ->
  NoDup (map snd (pings s')) -> (~ 0 < e < nexte s -> d_timer d = false) ->
  nextc s' = nextc s -> nexte s' = nexte s -> cs s' = cs s ->
  self s' = self s -> parent s' = parent s -> routes s' = routes s ->
  (forall x, In x (gce s') -> alive s x) ->
  pend s' = pend s -> lpend s' = lpend s -> connecting s' = connecting s ->
  nst s' = nst s -> log s' = log s -> Inv s'.
Proof.
  intros H EE D1 D2 TI ND FR E1 E2 E3 E5 E6 E7 E8 E9 E10 E12 N L.
  assert (ID : my_id s' = my_id s) by (unfold my_id; now rewrite E5).
  assert (BB : forall x, d_ep (es s' x) = d_ep (es s x) /\ conns (es s' x) = conns (es s x)).
  { intro x. rewrite EE. destruct (N.eqb_spec x e) as [->|]; auto. }
  assert (B1 := fun x => proj1 (BB x)). assert (B2 := fun x => proj2 (BB x)).
  destruct H; constructor; rewrite ?E1, ?E2, ?E3, ?E6, ?E7, ?E9, ?E10, ?E12, ?ID, ?N, ?L; trivial; auto.
  - intros x y. rewrite B2. apply I_bind.
  - intro y. now rewrite B2.
  - intros x F. rewrite B2. destruct (I_freshe x F) as [F1 F2]. split; [exact F1|].
    rewrite EE. destruct (N.eqb_spec x e) as [->|]; auto.
  - intros x F. rewrite B1. auto.
  - intros x X. unfold alive. rewrite E2, B1. unfold tabled in X. rewrite E5, E6, E7 in X.
    destruct X as [X|[X|[X|X]]]; [apply I_tab; now left|apply I_tab; now right; left|apply I_tab; now right; right; left|].
    apply E8, X.
  - intros x. rewrite EE, <- TI. destruct (x =? e); reflexivity.
Qed.
Lemma keep_ep e f s :
  d_ep (f (es s e)) = d_ep (es s e) -> d_ctrl (f (es s e)) = d_ctrl (es s e) ->
  d_data (f (es s e)) = d_data (es s e) -> d_timer (f (es s e)) = d_timer (es s e) ->
  Inv s -> Inv (on_e e f s).
Proof.
  intros A B C D H. apply (Inv_ep s _ e (f (es s e))); trivial; try reflexivity.
  - unfold conns. now rewrite B, C.
  - intro x. change (pings (on_e e f s)) with (pings s). rewrite <- (I_timer s H).
    destruct (N.eqb_spec x e) as [->|]; [now rewrite D|reflexivity].
  - apply (I_ping s H).
  - intro F. rewrite D. now apply (I_freshe s H).
  - intros x I. apply (I_tab s H). now right; right; right.
Qed.
Lemma keep_unping e s : Inv s -> Inv (clear_ping e s).
Proof.
  intros H. assert (P : pings (clear_ping e s) = filter (fun p => negb (snd p =? e)) (pings s)).
  { rewrite pings_clear_ping. destruct (d_timer (es s e)) eqn:DT; [reflexivity|]. symmetry. apply filter_true.
    intros p I. destruct (N.eqb_spec (snd p) e) as [X|]; [|reflexivity]. exfalso.
    assert (Y : In e (map snd (pings s))) by (rewrite <- X; now apply in_map).
    apply (I_timer s H) in Y. congruence. }
  apply (Inv_ep s _ e (set_d_timer false (es s e))); trivial; try reflexivity; try fr1.
  - intro x. apply es_clear_ping.
  - intro x. rewrite P, in_ping_filter, <- (I_timer s H). destruct (N.eqb_spec x e) as [->|]; cbn; intuition congruence.
  - rewrite P. apply nodup_ping_filter, (I_ping s H).
  - intros x. rewrite (keeps (f := gce) (g := clear_ping e)). intro I. apply (I_tab s H). now right; right; right.
Qed.
Lemma keep_insert_ping x s : alive s x -> d_timer (es s (e_ref x)) = false -> Inv s -> Inv (insert_ping x s).
Proof.
  intros A D H. unfold insert_ping. destruct (_ || _); [exact H|].
  apply (Inv_ep s _ (e_ref x) (set_d_timer true (es s (e_ref x)))); trivial; try reflexivity.
  - intro y. cbn [pings on_e set_es set_pings]. rewrite map_app, in_app_iff. cbn [map snd In].
    rewrite <- (I_timer s H). destruct (N.eqb_spec y (e_ref x)) as [->|]; cbn; intuition congruence.
  - cbn [pings on_e set_es set_pings]. rewrite map_app. cbn [map snd]. apply nodup_snoc; [apply (I_ping s H)|].
    intro I. apply (I_timer s H) in I. congruence.
  - intros F. now destruct A.
  - intros y I. apply (I_tab s H). now right; right; right.
Qed.
Lemma keep_ping x s : alive s x -> Inv s -> Inv (add_ping x s).
Proof.
  intros A H. unfold add_ping. apply keep_insert_ping.
  - unfold alive in *. rewrite (keeps (f := nexte) (g := clear_ping _)), es_clear_ping, N.eqb_refl. exact A.
  - now rewrite es_clear_ping, N.eqb_refl.
  - now apply keep_unping.
Qed.
Lemma keep_epcreate i subs p h s : Inv s -> Inv (fst (ep_create i subs p h s)).
Proof.
  intros H. unfold ep_create. cbn [fst].
  set (x := {| e_ref := nexte s; e_id := i; e_subs := subs |}).
  set (d := {| d_ep := x; d_pid := p; d_host := h; d_ctrl := None; d_data := [];
              d_listen := []; d_lfd := false; d_timer := false; d_fault := 0; d_ping := 0;
              d_created := 0 |}).
  set (s1 := set_nexte _ _).
  assert (EE : forall y, es s1 y = if y =? nexte s then d else es s y) by reflexivity.
  pose proof (I_zero s H) as Z.
  assert (F0 : conns (es s (nexte s)) = [] /\ d_timer (es s (nexte s)) = false) by (apply (I_freshe s H); lia).
  assert (H1 : Inv s1).
  { assert (NE : nexte s1 = nexte s + 1) by reflexivity.
    assert (CO : forall y, conns (es s1 y) = conns (es s y)).
    { intro y. rewrite EE. destruct (N.eqb_spec y (nexte s)) as [->|]; [|reflexivity]. symmetry. apply F0. }
    assert (TI : forall y, d_timer (es s1 y) = d_timer (es s y)).
    { intro y. rewrite EE. destruct (N.eqb_spec y (nexte s)) as [->|]; [|reflexivity]. symmetry. apply F0. }
    assert (AL : forall y, alive s y -> alive s1 y).
    { intros y [A1 A2]. unfold alive. rewrite NE, EE. destruct (N.eqb_spec (e_ref y) (nexte s)) as [X|]; [lia|].
      split; [lia|exact A2]. }
    destruct H; constructor; rewrite ?NE; trivial.
    - lia.
    - intros c y. rewrite CO. apply I_bind.
    - intro y. now rewrite CO.
    - intros y F. rewrite CO, TI. apply I_freshe. lia.
    - intros y F. rewrite EE. destruct (N.eqb_spec y (nexte s)) as [->|]; [reflexivity|]. apply I_ref. lia.
    - intros y Y. apply AL, I_tab, Y.
    - intro y. rewrite TI. apply I_timer.
    - intros y I. apply I_log in I. lia. }
  apply keep_insert_ping; trivial.
  - unfold alive. rewrite EE. change (e_ref x) with (nexte s). rewrite N.eqb_refl.
    change (nexte s1) with (nexte s + 1). split; [lia|reflexivity].
  - rewrite EE. change (e_ref x) with (nexte s). now rewrite N.eqb_refl.
Qed.
Lemma coll_set_in c k e x : In x (map snd (coll_set c k e)) -> x = e \/ In x (map snd c).
Proof.
  induction c as [|[r y] c IH]; cbn; [intuition|].
  destruct (range_ltb r k); cbn; [|destruct (range_ltb k r); cbn]; intuition.
Qed.
Lemma coll_sets_in rs e : forall c x, In x (map snd (fold_left (fun c r => coll_set c r e) rs c)) -> x = e \/ In x (map snd c).
Proof.
  induction rs as [|r rs IH]; intros c x I; cbn in I; [now right|].
  apply IH in I as [I|I]; [now left|]. now apply coll_set_in in I.
Qed.
Lemma coll_erase_sub c k : sub (coll_erase c k) c.
Proof.
  induction c as [|[r y] c IH]; cbn; [constructor|].
  destruct (range_ltb r k); [now constructor|]. destruct (range_ltb k r); [apply sub_refl|apply sub_tail].
Qed.
Lemma coll_erases_sub rs : forall c, sub (fold_left coll_erase rs c) c.
Proof.
  induction rs as [|r rs IH]; intro c; [apply sub_refl|]. cbn.
  eapply sub_trans; [apply IH|apply coll_erase_sub].
Qed.
Lemma remove_child_sub c i ex : sub (snd (remove_child c i ex)) c.
Proof.
  unfold remove_child. destruct (lower_bound c (point i)) as [[r e]|]; [|apply sub_refl].
  destruct (negb _); [apply sub_refl|]. destruct ex as [x|]; [destruct (negb _)|]; try apply sub_refl; apply coll_erases_sub.
Qed.
Lemma lower_bound_in c k r e : lower_bound c k = Some (r, e) -> In (r, e) c.
Proof.
  induction c as [|[r' e'] c IH]; cbn; [discriminate|]. destruct (range_ltb r' k); [auto|].
  intros [= -> ->]. now left.
Qed.
Lemma child_at_in c i e : child_at c i = Some e -> In e (map snd c).
Proof.
  unfold child_at. destruct (lower_bound c (point i)) as [[r x]|] eqn:L; [|discriminate].
  cbn. intros [= <-]. apply lower_bound_in in L. apply in_map_iff. now exists (r, x).
Qed.
Lemma sub_in_snd {A B} (l l' : list (A * B)) x : sub l l' -> In x (map snd l) -> In x (map snd l').
Proof. intro S. apply sub_in, sub_map, S. Qed.

(** Tables change: parent and routes, log with endpoint events. *)
Lemma Inv_tables s s' : Inv s ->
  nextc s' = nextc s -> nexte s' = nexte s -> es s' = es s -> cs s' = cs s ->
  self s' = self s -> (forall x, tabled s' x -> alive s x) ->
  pend s' = pend s -> lpend s' = lpend s -> pings s' = pings s -> connecting s' = connecting s ->
  (parent s' <> None -> my_id s <> 0) ->
  (nst s' = NCreated -> parent s' = None /\ routes s' = []) ->
  (forall e, In (TAdded e) (log s') \/ In (TRemoved e) (log s') -> e < nexte s) ->
  Inv s'.
Proof.
  intros H E1 E2 E3 E4 E5 E6 E9 E10 E11 E12 P N L.
  assert (ID : my_id s' = my_id s) by (unfold my_id; now rewrite E5).
  destruct H; constructor; rewrite ?E1, ?E2, ?E3, ?E4, ?E9, ?E10, ?E11, ?E12, ?ID; trivial; auto.
  intros x X. unfold alive. rewrite E2, E3. apply E6, X.
Qed.
Lemma keep_addep x s : nst s <> NCreated -> alive s x -> Inv s -> Inv (fst (add_endpoint x s)).
Proof.
  intros NC A H. unfold add_endpoint. destruct (fl_reset s); [exact H|].
  destruct (negb (my_id s =? 0) && subnets_contain (e_subs x) (my_subs s)) eqn:E1.
  - apply andb_prop in E1 as [E1 _]. apply Bool.negb_true_iff, N.eqb_neq in E1.
    destruct (parent s) eqn:EP; [exact H|]. cbn [fst].
    assert (H1 : Inv (set_parent (Some x) s)).
    { apply (Inv_tables s); trivial; try reflexivity.
      - intros y [Y|[Y|Y]]; [apply (I_tab s H); now left| |apply (I_tab s H); right; right; exact Y].
        cbn in Y. injection Y as ->. exact A.
      - intro X. now elim NC.
      - apply (I_log s H). }
    set (s1 := set_parent (Some x) s) in *.
    assert (A1 : alive s1 x) by exact A.
    assert (H2 : Inv (add_ping x s1)) by now apply keep_ping.
    assert (A2 : e_ref x < nexte (add_ping x s1)).
    { rewrite (keeps (f := nexte) (g := add_ping x)). apply A. }
    set (s2 := add_ping x s1) in *. clearbody s2.
    match goal with |- context [if ?b then on_actived s2 else s2] => set (s3 := if b then on_actived s2 else s2) end.
    assert (H3 : Inv s3) by (unfold s3; destruct (_ && _); [now apply keep_act|exact H2]).
    assert (A3 : e_ref x < nexte s3).
    { unfold s3. destruct (_ && _); [|exact A2]. now rewrite (keeps (f := nexte) (g := on_actived)). }
    clearbody s3. apply (Inv_tables s3); trivial; try reflexivity.
    + apply (I_tab s3 H3).
    + apply (I_parent s3 H3).
    + apply (I_created s3 H3).
    + intros e [[I|I]|[I|I]]; try discriminate; try (apply (I_log s3 H3); now auto). injection I as <-. exact A3.
  - destruct (_ && _ && _); [exact H|].
    destruct (insert_child (routes s) x) as [[] t] eqn:IC; [|exact H]. cbn [fst].
    assert (IN : forall y, In y (map snd t) -> y = x \/ In y (map snd (routes s))).
    { unfold insert_child in IC. destruct (check_conflicts _ _); [discriminate|]. injection IC as <-.
      apply coll_sets_in. }
    assert (H1 : Inv (emit (TAdded (e_ref x)) (set_routes t s))).
    { apply (Inv_tables s); trivial; try reflexivity.
      - intros y [Y|[Y|[Y|Y]]]; [apply (I_tab s H); now left|apply (I_tab s H); now right; left| |
          apply (I_tab s H); now right; right; right].
        cbn in Y. apply IN in Y as [-> |Y]; [exact A|]. apply (I_tab s H). now right; right; left.
      - apply (I_parent s H).
      - intro X. now elim NC.
      - intros e [[I|I]|[I|I]]; try discriminate; try (apply (I_log s H); now auto). injection I as <-. apply A. }
    apply keep_ping; [exact A|exact H1].
Qed.
Lemma keep_rmparent p s : parent s = Some p -> Inv s -> Inv (emit (TRemoved (e_ref p)) (set_parent None s)).
Proof.
  intros P H. apply (Inv_tables s); trivial; try reflexivity.
  - intros y [Y|[Y|Y]]; [apply (I_tab s H); now left|discriminate|apply (I_tab s H); right; right; exact Y].
  - now intros [].
  - intro C. split; [reflexivity|]. now apply (I_created s H).
  - intros e [[I|I]|[I|I]]; try discriminate; try (apply (I_log s H); now auto). injection I as <-.
    apply (I_tab s H). now right; left.
Qed.
Lemma keep_rmchild i ex t e s : remove_child (routes s) i ex = (true, t) -> child_at (routes s) i = Some e ->
  Inv s -> Inv (emit (TRemoved (e_ref e)) (set_routes t s)).
Proof.
  intros R C H. assert (S : sub t (routes s)).
  { pose proof (remove_child_sub (routes s) i ex) as S. now rewrite R in S. }
  apply (Inv_tables s); trivial; try reflexivity.
  - intros y [Y|[Y|[Y|Y]]]; [apply (I_tab s H); now left|apply (I_tab s H); now right; left| |
      apply (I_tab s H); now right; right; right].
    apply (I_tab s H). right; right; left. eapply sub_in_snd; eauto.
  - apply (I_parent s H).
  - intro X. apply (I_created s H) in X as [X1 X2]. split; [exact X1|]. cbn. rewrite X2 in S. now inversion S.
  - intros y [[I|I]|[I|I]]; try discriminate; try (apply (I_log s H); now auto). injection I as <-.
    apply (I_tab s H). right; right; left. now apply child_at_in in C.
Qed.
Lemma keep_rmep i ex s : Inv s -> Inv (fst (remove_endpoint i ex s)).
Proof.
  intros H. unfold remove_endpoint. destruct (is_parent s i).
  - destruct (parent s) as [p|] eqn:P; [|exact H].
    destruct (match ex with Some _ => _ | None => _ end); [exact H|]. cbn [fst].
    assert (H1 : Inv (emit (TRemoved (e_ref p)) (set_popr (sec s + x_retry (cf s)) (set_nst NLost (set_parent None s))))).
    { apply (Inv_misc (set_nst NLost (emit (TRemoved (e_ref p)) (set_parent None s)))); [same|].
      apply keep_nst; [discriminate|]. now apply keep_rmparent. }
    set (s1 := emit _ _) in *. clearbody s1. destruct (fl_act s1); [exact H1|]. now apply keep_shut.
  - destruct (my_id s =? i); [exact H|].
    destruct (remove_child (routes s) i ex) as [[] t] eqn:R; [|exact H].
    destruct (child_at (routes s) i) as [e|] eqn:C; [|exact H]. cbn [fst]. eapply keep_rmchild; eauto.
Qed.
Lemma purge_fields s : let s' := purge s in
  routes s' = [] /\ (forall t, In t (log s') -> In t (log s) \/ exists x, In x (map snd (routes s)) /\ t = TRemoved (e_ref x)) /\
  cf s' = cf s /\ nst s' = nst s /\ self s' = self s /\ parent s' = parent s /\
  fl_act s' = fl_act s /\ fl_shut s' = fl_shut s /\ sec s' = sec s /\ connecting s' = connecting s /\
  pings s' = pings s /\ pend s' = pend s /\ lpend s' = lpend s /\ gce s' = gce s /\ cs s' = cs s /\
  nextc s' = nextc s /\ es s' = es s /\ nexte s' = nexte s.
Proof.
  unfold purge. cbv zeta.
  assert (G : forall l s0, let s' := fold_left (fun s e => emit (TRemoved e) s) l s0 in
    (forall t, In t (log s') -> In t (log s0) \/ exists x, In x l /\ t = TRemoved x) /\
    routes s' = routes s0 /\ cf s' = cf s0 /\ nst s' = nst s0 /\ self s' = self s0 /\ parent s' = parent s0 /\
    fl_act s' = fl_act s0 /\ fl_shut s' = fl_shut s0 /\ sec s' = sec s0 /\ connecting s' = connecting s0 /\
    pings s' = pings s0 /\ pend s' = pend s0 /\ lpend s' = lpend s0 /\ gce s' = gce s0 /\ cs s' = cs s0 /\
    nextc s' = nextc s0 /\ es s' = es s0 /\ nexte s' = nexte s0).
  { induction l as [|e l IH]; intro s0; cbv zeta; cbn [fold_left].
    - split; [auto|]. repeat split; reflexivity.
    - destruct (IH (emit (TRemoved e) s0)) as (L & R). cbv zeta in L, R. split; [|exact R].
      intros t I. apply L in I as [[<-|I]|(x & I & ->)]; [right; exists e; split; [now left|reflexivity]|now left|].
      right. exists x. split; [now right|reflexivity]. }
  destruct (G (map (fun p => e_ref (snd p)) (routes s)) (set_routes [] s)) as (L & R1 & R). cbv zeta in L, R1, R.
  split; [exact R1|]. split; [|exact R].
  intros t I. apply L in I as [I|(x & I & ->)]; [now left|]. right.
  apply in_map_iff in I as (p & <- & I). exists (snd p). split; [now apply in_map|reflexivity].
Qed.
Lemma keep_purge s : Inv s -> Inv (purge s).
Proof.
  intros H. destruct (purge_fields s) as (R & L & E1 & E2 & E3 & E4 & E5 & E6 & E7 & E8 & E9 & E10 & E11 & E12 & E13 & E14 & E15 & E16).
  set (s' := purge s) in *. clearbody s'.
  apply (Inv_tables s); trivial.
  - intros y [Y|[Y|[Y|Y]]].
    + apply (I_tab s H). left. congruence.
    + apply (I_tab s H). right; left. congruence.
    + rewrite R in Y. destruct Y.
    + apply (I_tab s H). right; right; right. congruence.
  - rewrite E4. apply (I_parent s H).
  - rewrite E2, E4. intro X. split; [now apply (I_created s H)|exact R].
  - intros e [I|I]; apply L in I as [I|(x & I & X)]; try (apply (I_log s H); now auto); try discriminate.
    injection X as ->. apply (I_tab s H). now right; right; left.
Qed.
Lemma keep_gce l s : (forall x, In x l -> alive s x) -> Inv s -> Inv (set_gce l s).
Proof.
  intros A H. apply (Inv_tables s); trivial; try reflexivity.
  - intros y [Y|[Y|[Y|Y]]]; [apply (I_tab s H); now left|apply (I_tab s H); now right; left|
      apply (I_tab s H); now right; right; left|now apply A].
  - apply (I_parent s H).
  - apply (I_created s H).
  - apply (I_log s H).
Qed.
Lemma Inv_pend s s' : Inv s ->
  NoDup (pend s' ++ lpend s') ->
  (forall c, In c (pend s' ++ lpend s') -> c < nextc s /\ k_kind (cs s c) = KNone) ->
  nextc s' = nextc s -> nexte s' = nexte s -> es s' = es s -> cs s' = cs s ->
  self s' = self s -> parent s' = parent s -> routes s' = routes s -> gce s' = gce s ->
  pings s' = pings s -> connecting s' = connecting s -> nst s' = nst s -> log s' = log s -> Inv s'.
Proof.
  intros H ND P E1 E2 E3 E4 E5 E6 E7 E8 E9 E10 E11 E12.
  assert (ID : my_id s' = my_id s) by (unfold my_id; now rewrite E5).
  destruct H; constructor; rewrite ?E1, ?E2, ?E3, ?E4, ?E6, ?E7, ?E9, ?E10, ?E11, ?E12, ?ID; trivial; auto.
  intros x X. unfold alive. rewrite E2, E3. apply I_tab. unfold tabled in *. now rewrite E5, E6, E7, E8 in X.
Qed.
Lemma micro_Inv a s s' : micro a s s' -> Inv s -> Inv s'.
Proof.
  intros M H. destruct M.
  - eapply Inv_misc; eauto.
  - now apply keep_nst.
  - now apply keep_act.
  - now apply keep_shut.
  - now apply keep_emit.
  - now apply keep_create.
  - now apply keep_conn.
  - now apply keep_timers.
  - now apply keep_push.
  - now apply keep_written.
  - now apply keep_creset.
  - now apply keep_ereset.
  - now apply keep_addconn.
  - now apply keep_ep.
  - now apply keep_epcreate.
  - now apply keep_addep.
  - now apply keep_rmep.
  - now apply keep_rmparent.
  - eapply keep_rmchild; eauto.
  - now apply keep_purge.
  - now apply keep_gce.
  - assert (S : sub (l ++ lpend s) (pend s ++ lpend s)) by (apply sub_app; [trivial|apply sub_refl]).
    apply (Inv_pend s); trivial; try reflexivity.
    + eapply sub_nodup; [exact S|apply (I_pend s H)].
    + intros c I. apply (I_pendc s H). eapply sub_in; eauto.
  - assert (S : sub (pend s ++ l) (pend s ++ lpend s)) by (apply sub_app; [apply sub_refl|trivial]).
    apply (Inv_pend s); trivial; try reflexivity.
    + eapply sub_nodup; [exact S|apply (I_pend s H)].
    + intros c I. apply (I_pendc s H). eapply sub_in; eauto.
  - apply (Inv_pend s); trivial; try reflexivity; cbn [pend lpend set_pend].
    + pose proof (I_pend s H) as ND. rewrite in_app_iff in H2.
      rewrite <- app_assoc. cbn [app]. apply NoDup_Add with (a := c) (l := pend s ++ lpend s); [apply Add_app|].
      split; [exact ND|]. now rewrite in_app_iff.
    + intros x I. rewrite !in_app_iff in I. cbn in I.
      destruct I as [[I|[<-|[]]]|I]; auto; apply (I_pendc s H), in_app_iff; auto.
  - apply (Inv_pend s); trivial; try reflexivity; cbn [pend lpend set_lpend].
    + rewrite app_assoc. apply nodup_snoc; [apply (I_pend s H)|trivial].
    + intros x I. rewrite app_assoc, in_app_iff in I. destruct I as [I|[<-|[]]]; auto; now apply (I_pendc s H).
  - now apply keep_unping.
  - now apply keep_ping.
  - apply (Inv_calm s); try reflexivity; auto. apply sub_refl.
  - apply keep_emit; [exact Logic.I|]. apply (keep_ep e (fun d => set_d_fault (d_fault d + 1) d)); trivial; reflexivity.
  - apply keep_emit; [exact Logic.I|]. apply (keep_ep e (set_d_fault 0)); trivial; reflexivity.
Qed.

(** ** Sequences of small steps *)
Inductive steps (a : bool) : node -> node -> Prop :=
| steps_refl s : steps a s s
| steps_cons s1 s2 s3 : micro a s1 s2 -> steps a s2 s3 -> steps a s1 s3.
Lemma steps_one a s s' : micro a s s' -> steps a s s'.
Proof. intro M. econstructor; [exact M|constructor]. Qed.
Lemma steps_trans a s1 s2 s3 : steps a s1 s2 -> steps a s2 s3 -> steps a s1 s3.
Proof. induction 1; intro; [assumption|]. econstructor; eauto. Qed.
Lemma steps_Inv a s s' : steps a s s' -> Inv s -> Inv s'.
Proof. induction 1; intro; [assumption|]. eauto using micro_Inv. Qed.
Lemma steps_ind_rel (R : node -> node -> Prop) a :
  (forall s, R s s) -> (forall s1 s2 s3, R s1 s2 -> R s2 s3 -> R s1 s3) ->
  (forall s s', Inv s -> micro a s s' -> R s s') ->
  forall s s', Inv s -> steps a s s' -> R s s'.
Proof.
  intros A B C s s' H S. induction S as [|s1 s2 s3 M S IH]; [apply A|]. apply (B s1 s2 s3); [now apply C|].
  apply IH. eapply micro_Inv; eauto.
Qed.
Lemma steps_ind_inv (P : node -> Prop) a :
  (forall s s', Inv s -> micro a s s' -> P s -> P s') ->
  forall s s', Inv s -> steps a s s' -> P s -> P s'.
Proof.
  intros C s s' H S. induction S as [|s1 s2 s3 M S IH]; intro X; [exact X|].
  apply IH; [eapply micro_Inv; eauto|]. eapply C; eauto.
Qed.
