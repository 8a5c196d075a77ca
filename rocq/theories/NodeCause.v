(** Why endpoints are removed: proofs. *)
From Verif Require Import Base Subnet Route Address NodeTypes NodeConn NodeCore NodeMsg Node
  NodeFrame NodeReset NodeInv NodeKeep NodeSteps NodeReach NodeSpec NodeLog NodeNotice CauseSpec.
Local Open Scope N_scope.
Ltac Zify.zify_post_hook ::= idtac.

Definition common (t : tr) : Prop := match t with TFault _ _ _ | TGood _ | TRemoved _ => False | _ => True end.
(** No fault is added and no endpoint in use changes. *)
Definition tamer (s s' : node) : Prop := forall y, d_fault (es s' y) <= d_fault (es s y) /\
  (d_ep (es s' y) = d_ep (es s y) \/ nexte s <= y /\ 0 < y < nexte s').
(** What a small step does to the log, the fault counters and the tables. *)
Inductive kind (s s' : node) : Prop :=
| K_plain l : log s' = l ++ log s -> Forall common l -> tamer s s' -> kind s s'
| K_fault e : s' = blamed e s -> kind s s'
| K_good e : s' = forgive e s -> kind s s'
| K_rm x : log s' = TRemoved (e_ref x) :: log s -> es s' = es s -> alive s x ->
    ((exists l, log s = TAsked (e_id x) :: l) \/ grounds (e_id x) (Some (e_ref x)) s) -> kind s s'
| K_purge : s' = purge s -> NodeInv.doomed s -> kind s s'.
Lemma kind_same s s' : log s' = log s -> es s' = es s -> kind s s'.
Proof. intros L E. apply (K_plain s s' []); [exact L|constructor|]. intro y. rewrite E. split; [lia|now left]. Qed.
Lemma kind_log l s s' : log s' = l ++ log s -> Forall common l -> es s' = es s -> kind s s'.
Proof. intros L F E. apply (K_plain s s' l); trivial. intro y. rewrite E. split; [lia|now left]. Qed.
Lemma kind_soft s s' : soft s s' -> tamer s s' -> kind s s'.
Proof.
  intros [(l & L & F) _] E. apply (K_plain s s' l); trivial. eapply Forall_impl; [|exact F]. intros [] X; try discriminate X; exact Logic.I.
Qed.
Lemma grounds_at i ex x s : grounds i ex s -> (forall e, ex = Some e -> e_ref x = e) -> grounds i (Some (e_ref x)) s.
Proof.
  intros [D|[F|(e & E & D)]] H; [now left|now right; left|]. right. right. exists e. now rewrite (H e E).
Qed.
Lemma child_found s i ex t x : Inv s -> remove_child (routes s) i ex = (true, t) -> child_at (routes s) i = Some x ->
  alive s x /\ e_id x = i /\ (forall e, ex = Some e -> e_ref x = e).
Proof.
  intros I RM CH. unfold child_at in CH. unfold remove_child in RM. destruct (lower_bound (routes s) (point i)) as [[k y]|] eqn:B; [|discriminate].
  cbn in CH. injection CH as ->. destruct (N.eqb_spec (e_id x) i) as [E|]; [|discriminate]. cbn [negb] in RM.
  split; [|split; [exact E|]].
  - apply (tab_route s (k, x) I). clear -B. revert B. induction (routes s) as [|[r z] c IH]; cbn [lower_bound]; [discriminate|].
    destruct (range_ltb r _); [right; auto|]. intro X. injection X as -> ->. now left.
  - intros e ->. destruct (N.eqb_spec (e_ref x) e); [trivial|discriminate].
Qed.
Lemma fault_insert x s y : d_fault (es (insert_ping x s) y) = d_fault (es s y) /\ d_ep (es (insert_ping x s) y) = d_ep (es s y).
Proof. unfold insert_ping. destruct (_ || _); [now split|]. rewrite es_on_e. cbn [es set_pings]. destruct (N.eqb_spec y (e_ref x)) as [->|]; split; reflexivity. Qed.
Lemma fault_ping x s y : d_fault (es (add_ping x s) y) = d_fault (es s y) /\ d_ep (es (add_ping x s) y) = d_ep (es s y).
Proof. unfold add_ping. destruct (fault_insert x (clear_ping (e_ref x) s) y) as [-> ->]. rewrite es_clear_ping. destruct (N.eqb_spec y (e_ref x)) as [->|]; split; reflexivity. Qed.
Lemma tamer_ping x s : tamer s (add_ping x s).
Proof. intro y. destruct (fault_ping x s y) as [-> ->]. split; [lia|now left]. Qed.
Lemma micro_kind a s s' : Inv s -> micro a s s' -> kind s s'.
Proof.
  intros I M. destruct M as [s s' C|v s V|s N|z s|t s T U|s|c f s|l s|c m s|c z n s|c s|g e s|e c b s|e f s E1 E2 E3 E4 E5|i subs p h s|x s A0 N A I0 Z0
    |i ex s G|p s P Q|i ex t e s R C Q|s D|l s|l s|l s|c s|c s|e s|x s|v s|e s|e s]; try (apply kind_same; (reflexivity || fr1)).
  - apply kind_same; apply C.
  - unfold on_actived. cbn [fl_act set_nst]. destruct (fl_act s); [now apply kind_same|].
    apply (kind_log [TUp]); trivial. now repeat constructor.
  - unfold shutdown. destruct (fl_shut s); [now apply kind_same|]. cbn [fl_act set_fl_shut]. destruct (fl_act s); [|now apply kind_same].
    apply (kind_log [TDown z]); trivial. now repeat constructor.
  - apply (kind_log [t]); trivial. constructor; [|constructor]. destruct t; try exact Logic.I; contradiction.
  - destruct (push_log c m s) as [L|[r L]]; [apply kind_same; [exact L|fr1]|].
    apply (kind_log [TSend c m (x_size (cf s) m) r]); trivial; [constructor; [exact Logic.I|constructor]|fr1].
  - unfold written. destruct (linked s c); [|now apply kind_same]. cbv zeta.
    apply (kind_log [TWrote c z n]); [destruct (_ =? _)%Z; reflexivity|now repeat constructor|destruct (_ =? _)%Z; reflexivity].
  - apply kind_soft; [apply soft_conn_reset|]. intro y. rewrite (es_conn_reset y c s (Inv_listed s I)).
    destruct (k_bind (cs s c)) as [e|]; [|split; [lia|now left]]. destruct (N.eqb_spec y e) as [->|]; [|split; [lia|now left]]. destruct (drops _ _); (split; [cbn; lia|now left]).
  - apply kind_soft; [apply soft_ep_reset|]. intro y. rewrite es_ep_reset. destruct (N.eqb_spec y e) as [->|]; (split; [cbn; lia|now left]).
  - apply kind_soft; [apply soft_addconn|]. intro y. unfold add_connection. destruct (k_bind (cs s c)); cbn [fst]; [split; [lia|now left]|].
    set (s1 := on_c c _ _). assert (X : d_fault (es s1 y) = d_fault (es s y) /\ d_ep (es s1 y) = d_ep (es s y)).
    { subst s1. rewrite es_on_c. destruct (_ || _); rewrite es_on_e; destruct (N.eqb_spec y e) as [->|]; split; reflexivity. }
    clearbody s1. destruct X as [X1 X2]. rewrite <- X1, <- X2. destruct (k_st (cs s1 c)); try (split; [lia|now left]). rewrite (keeps (f := es) (g := set_status c Connected)). split; [lia|now left].
  - apply (K_plain _ _ []); trivial. intro y. rewrite es_on_e. destruct (N.eqb_spec y e) as [->|]; (split; [first [exact E5|lia]|now left]).
  - apply (K_plain _ _ []); [fr1|constructor|]. intro y. unfold ep_create. cbn [fst]. destruct (fault_insert {| e_ref := nexte s; e_id := i; e_subs := subs |} (set_nexte (nexte s + 1) (set_es (upd (es s) (nexte s) {| d_ep := {| e_ref := nexte s; e_id := i; e_subs := subs |}; d_pid := p; d_host := h; d_ctrl := None; d_data := []; d_listen := []; d_lfd := false; d_timer := false; d_fault := 0; d_ping := 0; d_created := 0 |}) s)) y) as [-> ->].
    rewrite (keeps (f := nexte) (g := insert_ping _)). cbn [es set_nexte set_es nexte]. unfold upd. destruct (N.eqb_spec y (nexte s)) as [->|]; [split; [apply N.le_0_l|right]|split; [apply N.le_refl|now left]]. pose proof (I_zero s I). lia.
  - unfold add_endpoint. destruct (fl_reset s); [now apply kind_same|]. destruct (_ && _).
    + destruct (parent s) eqn:P; [now apply kind_same|]. cbv zeta. cbn [fst]. set (s2 := add_ping x (set_parent (Some x) s)).
      assert (Q : log s2 = log s) by (subst s2; fr1).
      assert (Q' : tamer s s2 /\ nexte s2 = nexte s).
      { split; [exact (tamer_ping x (set_parent (Some x) s))|subst s2; fr1]. }
      clearbody s2. destruct Q' as [Q' _]. destruct (_ && _); [unfold on_actived; cbn [fl_act set_nst]; destruct (fl_act s2)|].
      * apply (K_plain _ _ [TAdded (e_ref x)]); [cbn; now rewrite Q|now repeat constructor|exact Q'].
      * apply (K_plain _ _ [TAdded (e_ref x); TUp]); [cbn; now rewrite Q|now repeat constructor|exact Q'].
      * apply (K_plain _ _ [TAdded (e_ref x)]); [cbn; now rewrite Q|now repeat constructor|exact Q'].
    + destruct (_ && _); [now apply kind_same|]. destruct (insert_child _ _) as [[] t]; [|now apply kind_same]. cbn [fst].
      apply (K_plain _ _ [TAdded (e_ref x)]); [cbn; fr1|now repeat constructor|]. exact (tamer_ping x (emit (TAdded (e_ref x)) (set_routes t s))).
  - unfold remove_endpoint. destruct (is_parent s i) eqn:IP.
    + destruct (parent s) as [p|] eqn:P; [|now apply kind_same]. destruct (match ex with Some _ => _ | None => _ end) eqn:X; [now apply kind_same|]. cbv zeta. cbn [fst].
      assert (EI : e_id p = i) by (unfold is_parent in IP; rewrite P in IP; destruct (my_id s =? 0); [discriminate|]; now apply N.eqb_eq in IP).
      apply (K_rm _ _ p).
      * unfold fatal_shutdown, shutdown. cbn [fl_shut emit set_log set_popr set_nst set_parent set_fl_shut fl_act].
        destruct (fl_act s) eqn:A; [|destruct (fl_shut s)]; cbn; rewrite ?A; reflexivity.
      * destruct (fl_act _); [reflexivity|]. unfold fatal_shutdown, shutdown. destruct (fl_shut _); [reflexivity|]. destruct (fl_act _); reflexivity.
      * now apply tab_parent.
      * right. rewrite EI. apply (grounds_at i ex); trivial. intros e ->. destruct (N.eqb_spec (e_ref p) e); [trivial|discriminate].
    + destruct (_ =? _); [now apply kind_same|]. destruct (remove_child _ _ _) as [[] t] eqn:R; [|now apply kind_same].
      destruct (child_at _ _) as [x|] eqn:C; [|now apply kind_same]. cbn [fst].
      destruct (child_found s i ex t x I R C) as (A & EI & EX).
      apply (K_rm _ _ x); trivial. right. rewrite EI. now apply (grounds_at i ex).
  - apply (K_rm _ _ p); trivial; [now apply tab_parent|now left].
  - destruct (child_found s i ex t e I R C) as (A & EI & EX). apply (K_rm _ _ e); trivial. left. now rewrite EI.
  - now apply K_purge.
  - apply (K_plain _ _ []); [fr1|constructor|]. intro y. rewrite es_clear_ping. destruct (N.eqb_spec y e) as [->|]; (split; [cbn; lia|now left]).
  - apply (K_plain _ _ []); [fr1|constructor|]. apply tamer_ping.
  - now apply (K_fault _ _ e).
  - now apply (K_good _ _ e).
Qed.

(** ** The invariant *)
Fixpoint causes (s : node) (l : list tr) : Prop :=
  match l with
  | [] => True
  | t :: r => match t with TRemoved e => 0 < e < nexte s /\ reason (e_id (d_ep (es s e))) e r | _ => True end /\ causes s r
  end.
Record just (s : node) : Prop := {
  J_tally : forall y, d_fault (es s y) <= blame y (log s);
  J_fresh : forall y, ~ 0 < y < nexte s -> e_id (d_ep (es s y)) = 0;
  J_named : forall y i lim, In (TFault y i lim) (log s) -> i = 0 \/ 0 < y < nexte s /\ e_id (d_ep (es s y)) = i;
  J_why : causes s (log s) }.
Lemma blame_common y l r : Forall common l -> blame y (l ++ r) = blame y r.
Proof. induction 1 as [|t l C _ IH]; [reflexivity|]. destruct t; try contradiction; exact IH. Qed.
Lemma causes_common s l r : Forall common l -> causes s r -> causes s (l ++ r).
Proof. induction 1 as [|t l C _ IH]; [trivial|]. intro H. cbn [app causes]. split; [destruct t; (contradiction || trivial)|auto]. Qed.
Lemma causes_grow s s' l : grow s s' -> causes s l -> causes s' l.
Proof.
  intro G. induction l as [|t l IH]; [trivial|]. cbn [causes]. intros [H K]. split; [|auto]. destruct t; trivial.
  destruct H as [R H]. rewrite (G_ep _ _ G e R). split; [pose proof (G_e _ _ G); lia|exact H].
Qed.
Lemma causes_same s s' l : es s' = es s -> nexte s' = nexte s -> causes s l -> causes s' l.
Proof. intros E N. induction l as [|t l IH]; [trivial|]. cbn [causes]. rewrite E, N. intros [H K]. auto. Qed.
Lemma fault_common y i lim l r : Forall common l -> In (TFault y i lim) (l ++ r) -> In (TFault y i lim) r.
Proof. intros F X. apply in_app_or in X as [X|X]; [|exact X]. rewrite Forall_forall in F. elim (F _ X). Qed.
Lemma doomed_resetting s : NodeInv.doomed s -> resetting (log s). Proof. exact (fun H => H). Qed.
Lemma grounds_reason x s : just s -> grounds (e_id x) (Some (e_ref x)) s -> reason (e_id x) (e_ref x) (log s).
Proof.
  intros J [D|[(y & lim & l & L & F)|(e & E & (k & c & d & l & L & F & O))]].
  - now left.
  - right. right. left. exists y, lim, l. split; [exact L|]. pose proof (J_tally s J y). lia.
  - injection E as <-. do 3 right. exists k, c, d, l. split; [exact L|]. split; [|exact O].
    eapply Forall_impl; [|exact F]. intros [] X; try discriminate X; exact Logic.I.
Qed.
Lemma causes_purge s0 l : forall s, (forall e, In e l -> 0 < e < nexte s0) -> resetting (log s) -> causes s0 (log s) ->
  causes s0 (log (fold_left (fun s e => emit (TRemoved e) s) l s)).
Proof.
  induction l as [|e l IH]; intros s H D C; [exact C|]. cbn [fold_left]. apply IH.
  - intros x X. apply H. now right.
  - destruct D as (a & b & E & N). exists (TRemoved e :: a), b. cbn [log emit set_log app]. rewrite E. split; [reflexivity|].
    intros [X|X]; [discriminate|auto].
  - cbn [log emit set_log causes]. split; [|exact C]. split; [apply H; now left|now left].
Qed.
Lemma purge_log s : exists l, log (purge s) = l ++ log s /\ Forall (fun t => match t with TRemoved _ => True | _ => False end) l.
Proof.
  unfold purge. change (log s) with (log (set_routes [] s)). generalize (map (fun p : range * ep => e_ref (snd p)) (routes s)). intro l.
  generalize (set_routes [] s). induction l as [|x l IH]; intro s1; cbn [fold_left]; [exists []; split; [reflexivity|constructor]|].
  destruct (IH (emit (TRemoved x) s1)) as (k & E & F). exists (k ++ [TRemoved x]). rewrite E. split; [cbn; now rewrite <- app_assoc|].
  apply Forall_app. split; [exact F|now repeat constructor].
Qed.
Lemma purge_es s : es (purge s) = es s /\ nexte (purge s) = nexte s.
Proof.
  unfold purge. change (es s) with (es (set_routes [] s)). change (nexte s) with (nexte (set_routes [] s)). generalize (map (fun p : range * ep => e_ref (snd p)) (routes s)). intro l.
  generalize (set_routes [] s). induction l as [|x l IH]; intro s1; cbn [fold_left]; [now split|]. apply (IH (emit (TRemoved x) s1)).
Qed.
Lemma micro_just a s s' : Inv s -> micro a s s' -> just s -> just s'.
Proof.
  intros I M J. pose proof (micro_grow a s s' I M) as G.
  destruct (micro_kind a s s' I M) as [l L F T|e E|e E|x L E A W|E D].
  - constructor.
    + intro y. rewrite L, blame_common by exact F. pose proof (J_tally s J y). pose proof (proj1 (T y)). lia.
    + intros y R. destruct (proj2 (T y)) as [->|X]; [|now elim R]. apply (J_fresh s J). pose proof (G_e _ _ G). lia.
    + intros y i lim X. rewrite L in X. apply fault_common in X; [|exact F]. destruct (J_named s J y i lim X) as [->|[R N]]; [now left|right].
      rewrite (G_ep _ _ G y R). split; [pose proof (G_e _ _ G); lia|exact N].
    + rewrite L. apply causes_common; [exact F|]. now apply (causes_grow s), J.
  - assert (EP : forall y, d_ep (es s' y) = d_ep (es s y)).
    { intro y. subst s'. change (es (blamed e s) y) with (es (on_e e (fun d => set_d_fault (d_fault d + 1) d) s) y). rewrite es_on_e.
      destruct (N.eqb_spec y e) as [->|]; reflexivity. }
    assert (NE : nexte s' = nexte s) by (now subst s').
    assert (L : log s' = TFault e (e_id (d_ep (es s e))) (x_tol (cf s)) :: log s) by (now subst s'). constructor.
    + intro y. rewrite L. cbn [blame]. subst s'. change (es (blamed e s) y) with (es (on_e e (fun d => set_d_fault (d_fault d + 1) d) s) y). rewrite es_on_e.
      rewrite (N.eqb_sym e y). destruct (N.eqb_spec y e) as [->|]; [cbn [d_fault set_d_fault]; pose proof (J_tally s J e); lia|apply J].
    + intros y. rewrite NE, EP. apply J.
    + intros y i lim X. rewrite L in X. rewrite NE, EP. destruct X as [X|X]; [|now apply (J_named s J y i lim)]. injection X as <- <- <-.
      assert (R : 0 < e < nexte s \/ ~ 0 < e < nexte s) by lia. destruct R as [R|R]; [now right|left; now apply (J_fresh s J)].
    + rewrite L. cbn [causes]. split; [exact Logic.I|]. now apply (causes_grow s), J.
  - assert (EP : forall y, d_ep (es s' y) = d_ep (es s y)).
    { intro y. subst s'. change (es (forgive e s) y) with (es (on_e e (set_d_fault 0) s) y). rewrite es_on_e.
      destruct (N.eqb_spec y e) as [->|]; reflexivity. }
    assert (NE : nexte s' = nexte s) by (now subst s').
    assert (L : log s' = TGood e :: log s) by (now subst s'). constructor.
    + intro y. rewrite L. cbn [blame]. subst s'. change (es (forgive e s) y) with (es (on_e e (set_d_fault 0) s) y). rewrite es_on_e.
      rewrite (N.eqb_sym e y). destruct (N.eqb_spec y e) as [->|]; [apply N.le_refl|apply J].
    + intros y. rewrite NE, EP. apply J.
    + intros y i lim X. rewrite L in X. rewrite NE, EP. destruct X as [X|X]; [discriminate|now apply (J_named s J y i lim)].
    + rewrite L. cbn [causes]. split; [exact Logic.I|]. now apply (causes_grow s), J.
  - assert (GE : nexte s <= nexte s') by apply G. destruct A as [A1 A2]. constructor.
    + intro y. rewrite L, E. apply (J_tally s J y).
    + intros y R. rewrite E. apply (J_fresh s J). lia.
    + intros y i lim X. rewrite L in X. destruct X as [X|X]; [discriminate|]. rewrite E. destruct (J_named s J y i lim X) as [->|[R N]]; [now left|right]. split; [lia|exact N].
    + rewrite L. cbn [causes]. split; [|now apply (causes_grow s), J]. rewrite E, A2. split; [lia|]. destruct W as [W|W]; [now right; left|]. now apply grounds_reason.
  - destruct (purge_log s) as (l & L & F). destruct (purge_es s) as [E1 E2]. rewrite <- E in L, E1, E2. constructor.
    + intro y. rewrite L, E1. replace (blame y (l ++ log s)) with (blame y (log s)); [apply J|]. clear - F. induction F as [|t l X _ IH]; [reflexivity|]. destruct t; try contradiction. exact IH.
    + intros y. rewrite E1, E2. apply J.
    + intros y i lim X. rewrite E1, E2. apply (J_named s J y i lim). rewrite L in X. apply in_app_or in X as [X|X]; [|exact X]. rewrite Forall_forall in F. elim (F _ X).
    + apply (causes_grow s); [exact G|]. subst s'. unfold purge. apply causes_purge; [|exact D|apply J].
      intros e X. apply in_map_iff in X as (q & <- & Q). apply (tab_route s q I Q).
Qed.
Lemma estep_just s s' : Inv s -> estep true s s' -> just s -> just s'.
Proof.
  intros I E J. destruct E as [v s _|a s s' M|s P R PI C PE LP|x s N|e s N A].
  - destruct J as [J1 J2 J3 J4]. constructor; trivial. now apply (causes_same s).
  - eapply micro_just; eauto.
  - destruct J as [J1 J2 J3 J4]. constructor; trivial; [intros y i lim [X|X]; [discriminate|now apply (J3 y i lim)]|]. split; [exact Logic.I|].
    now apply (causes_same s).
  - destruct J as [J1 J2 J3 J4]. constructor; trivial. now apply (causes_same s).
  - destruct J as [J1 J2 J3 J4]. constructor; trivial. now apply (causes_same s).
Qed.
Theorem reachable_just s : reachable s -> just s.
Proof.
  apply reachable_ind; [|exact estep_just]. constructor; cbn; trivial; [intro; apply N.le_refl|tauto].
Qed.
Lemma causes_split s e r l : causes s (l ++ TRemoved e :: r) -> reason (e_id (d_ep (es s e))) e r.
Proof. induction l as [|t l IH]; [now intros [[_ H] _]|]. intros [_ H]. auto. Qed.
