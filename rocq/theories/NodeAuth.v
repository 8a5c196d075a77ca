(** Without an accepted registration nothing is added: proofs behind the authentication
    properties. *)
From Verif Require Import Base Subnet Route Address NodeTypes NodeConn NodeCore NodeMsg Node
  NodeFrame NodeReset NodeInv NodeKeep NodeSteps NodeCtx NodeReach NodeSpec NodeLog NodeNotice NodeTrace.
Local Open Scope N_scope.
Ltac Zify.zify_post_hook ::= idtac.

(** ** Endpoints that are added have an id *)
Definition ids_ok (s : node) : Prop := forall e, In (TAdded e) (log s) -> 0 < e < nexte s /\ e_id (d_ep (es s e)) <> 0.
Definition noadd (s s' : node) : Prop := forall e, In (TAdded e) (log s') -> In (TAdded e) (log s).
Lemma noadd_refl s : noadd s s. Proof. intro. trivial. Qed.
Lemma noadd_trans s1 s2 s3 : noadd s1 s2 -> noadd s2 s3 -> noadd s1 s3. Proof. intros A B e X. auto. Qed.
Lemma noadd_log l s s' : log s' = l ++ log s -> Forall mute l -> noadd s s'.
Proof.
  intros L F e X. rewrite L in X. apply in_app_or in X as [X|X]; [|exact X].
  rewrite Forall_forall in F. destruct (F _ X).
Qed.
Lemma noadd_same s s' : log s' = log s -> noadd s s'. Proof. intros L e. now rewrite L. Qed.
Lemma noadd_soft s s' : soft s s' -> noadd s s'.
Proof. intro S. destruct (soft_mute _ _ S) as (l & L & F). eapply noadd_log; eauto. Qed.
Lemma noadd_purge s : noadd s (purge s).
Proof.
  unfold purge. generalize (map (fun p : range * ep => e_ref (snd p)) (routes s)). intro l.
  eapply noadd_trans; [apply (noadd_same s (set_routes [] s)); reflexivity|]. generalize (set_routes [] s).
  induction l as [|x l IH]; intros s1; cbn [fold_left]; [apply noadd_refl|].
  eapply noadd_trans; [|apply IH]. intros e [X|X]; [discriminate|exact X].
Qed.
(** A small step adds nothing, or is [add_endpoint] of a fresh endpoint with an id. *)
Lemma micro_adding a s s' : micro a s s' -> noadd s s' \/
  exists x, a = true /\ s' = fst (add_endpoint x s) /\ alive s x /\ e_id x <> 0.
Proof.
  intro M. destruct M as [s s' C|v s V|s N|z s|t s T|s|c f s|l s|c m s|c z n s|c s|g e s|e c b s|e f s|i subs p h s|x s A0 N A I0 Z0
    |i ex s|p s P|i ex t e s R C|s|l s|l s|l s|c s|c s|e s|x s|v s|e s|e s]; try (right; exists x; split; [exact A0|split; [reflexivity|split; [exact A|exact Z0]]]); left;
    try (apply noadd_same; now (reflexivity || fr1)).
  - destruct C as (E1 & E2 & E3 & E4 & E5 & E6 & E7 & E8 & E9 & E10 & E11 & E12 & E13 & E14 & E15 & E16 & E17 & E18).
    now apply noadd_same.
  - unfold on_actived. cbn [fl_act set_nst]. destruct (fl_act s); [now apply noadd_same|].
    apply (noadd_log [TUp]); trivial. now repeat constructor.
  - unfold shutdown. destruct (fl_shut s); [apply noadd_refl|]. cbn [fl_act set_fl_shut]. destruct (fl_act s); [|now apply noadd_same].
    apply (noadd_log [TDown z]); trivial. now repeat constructor.
  - apply (noadd_log [t]); trivial. constructor; [|constructor]. destruct t; try exact Logic.I; contradiction.
  - destruct (push_log c m s) as [L|[r L]]; [now apply noadd_same|].
    apply (noadd_log [TSend c m (x_size (cf s) m) r]); trivial. constructor; [exact Logic.I|constructor].
  - unfold written. destruct (linked s c); [|apply noadd_refl]. cbv zeta.
    apply (noadd_log [TWrote c z n]); [destruct (_ =? _)%Z; reflexivity|now repeat constructor].
  - apply noadd_soft, soft_conn_reset.
  - apply noadd_soft, soft_ep_reset.
  - apply noadd_soft, soft_addconn.
  - unfold remove_endpoint. destruct (is_parent s i).
    + destruct (parent s) as [p|]; [|apply noadd_refl]. destruct (match ex with Some _ => _ | None => _ end); [apply noadd_refl|]. cbn [fst].
      unfold fatal_shutdown, shutdown. cbn [fl_shut emit set_log set_popr set_nst set_parent set_fl_shut fl_act].
      destruct (fl_act s) eqn:FA; try destruct (fl_shut s); cbn [fl_act set_fl_shut emit set_log set_popr set_nst set_parent]; try rewrite FA;
        intros e [X|X]; try discriminate X; trivial.
    + destruct (_ =? _); [apply noadd_refl|]. destruct (remove_child _ _ _) as [[] t]; [|apply noadd_refl].
      destruct (child_at _ _); [|apply noadd_refl]. intros e' [X|X]; [discriminate|exact X].
  - intros e' [X|X]; [discriminate|exact X].
  - intros e' [X|X]; [discriminate|exact X].
  - apply noadd_purge.
  - apply (noadd_log [TFault e (e_id (d_ep (es s e))) (x_tol (cf s))]); trivial. constructor; [exact Logic.I|constructor].
  - apply (noadd_log [TGood e]); trivial. constructor; [exact Logic.I|constructor].
Qed.
Lemma added_by x s e : In (TAdded e) (log (fst (add_endpoint x s))) -> In (TAdded e) (log s) \/ e = e_ref x.
Proof.
  unfold add_endpoint. destruct (fl_reset s); [now left|]. destruct (_ && _).
  - destruct (parent s); [now left|]. cbv zeta. cbn [fst]. set (s2 := add_ping x (set_parent (Some x) s)).
    assert (Q : log s2 = log s) by (subst s2; fr1). clearbody s2.
    assert (W : forall s3, log s3 = log s \/ log s3 = TUp :: log s -> In (TAdded e) (log (emit (TAdded (e_ref x)) s3)) -> In (TAdded e) (log s) \/ e = e_ref x).
    { intros s3 L [X|X]; [injection X as <-; now right|]. left. destruct L as [L|L]; rewrite L in X; [exact X|]. now destruct X as [X|X]; [discriminate|]. }
    apply W. destruct (_ && _); [unfold on_actived; cbn [fl_act set_nst]; destruct (fl_act s2)|]; cbn; rewrite Q; auto.
  - destruct (_ && _); [now left|]. destruct (insert_child _ _) as [[] t]; [|now left]. cbn [fst].
    rewrite (keeps (f := log) (g := add_ping x)). intros [X|X]; [injection X as <-; now right|now left].
Qed.
Theorem reachable_ids : forall s, reachable s -> ids_ok s.
Proof.
  apply reachable_ind; [intros e []|]. intros s1 s2 I E H.
  assert (K : grow s1 s2 -> noadd s1 s2 -> ids_ok s2).
  { intros G A e X. destruct (H e (A e X)) as [R Z]. rewrite (G_ep _ _ G e R). split; [|exact Z]. pose proof (G_e _ _ G). lia. }
  destruct E as [v s _|a s s' M|s P R PI C PE LP|x s N|e s N A].
  - exact H.
  - pose proof (micro_grow a s s' I M) as G. destruct (micro_adding a s s' M) as [A|(x & _ & E & AL & Z)]; [now apply K|].
    intros e X. rewrite E in X. apply added_by in X as [X|X].
    + destruct (H e X) as [R Z']. rewrite (G_ep _ _ G e R). split; [|exact Z']. pose proof (G_e _ _ G). lia.
    + subst e. destruct AL as [R D]. rewrite (G_ep _ _ G _ R), D. split; [|exact Z]. pose proof (G_e _ _ G). lia.
  - intros e [X|X]; [discriminate|]. exact (H e X).
  - exact H.
  - exact H.
Qed.
Lemma routed_id s p : reachable s -> In p (routes s) -> e_id (snd p) <> 0.
Proof.
  intros R P. pose proof (tab_route s p (reachable_Inv s R) P) as [_ D].
  assert (A : In (TAdded (e_ref (snd p))) (log s)).
  { pose proof (N_hist s (reachable_noticed s R) (e_ref (snd p))) as Hh.
    assert (NP : ~ absent s (e_ref (snd p))).
    { intros [_ X]. now apply (proj1 (entries_none _ _) X p P). }
    assert (T : In true (notified (e_ref (snd p)) (rev (log s)))).
    { destruct Hh; cbn; auto. }
    unfold notified in T. apply in_flat_map in T as (t & T1 & T2). apply in_rev in T1.
    destruct t; try contradiction; cbn in T2; destruct (N.eqb_spec e (e_ref (snd p))); cbn in T2; intuition; [now subst|discriminate]. }
  destruct (reachable_ids s R _ A) as [_ Z]. now rewrite D in Z.
Qed.

(** ** Nothing is added without an accepted key *)
Lemma steps_noadd s s' : Inv s -> steps false s s' -> noadd s s'.
Proof.
  intros I S. apply (steps_ind_inv (fun x => noadd s x)) with (s := s) (a := false); trivial; [|apply noadd_refl].
  intros s1 s2 _ M A. destruct (micro_adding _ _ _ M) as [B|(x & X & _)]; [|discriminate]. eapply noadd_trans; eauto.
Qed.
Lemma micro_cf a s s' : micro a s s' -> cf s' = cf s.
Proof.
  intro M. destruct M; try reflexivity; try fr1; [now destruct H as (E & _)|].
  unfold purge. change (cf s) with (cf (set_routes [] s)). generalize (map (fun p : range * ep => e_ref (snd p)) (routes s)). intro l.
  generalize (set_routes [] s). induction l as [|x l IH]; intros s1; cbn [fold_left]; [reflexivity|]. rewrite IH. reflexivity.
Qed.
Lemma steps_cf a s s' : steps a s s' -> cf s' = cf s.
Proof. induction 1 as [|s1 s2 s3 M S IH]; [reflexivity|]. rewrite IH. eapply micro_cf; eauto. Qed.
Record calm (s s' : node) : Prop := { Q_inv : Inv s'; Q_cf : cf s' = cf s; Q_add : noadd s s' }.
Lemma calm_refl s : Inv s -> calm s s. Proof. constructor; trivial. apply noadd_refl. Qed.
Lemma calm_trans s1 s2 s3 : calm s1 s2 -> calm s2 s3 -> calm s1 s3.
Proof. intros [] []. constructor; [assumption|congruence|eapply noadd_trans; eauto]. Qed.
Lemma calm_steps s s' : Inv s -> steps false s s' -> calm s s'.
Proof.
  intros I S. constructor; [eapply steps_Inv; eauto|eapply steps_cf; eauto|now apply steps_noadd].
Qed.
Lemma calm_soft a s s' : Inv s -> steps a s s' -> soft s s' -> calm s s'.
Proof. intros I S F. constructor; [eapply steps_Inv; eauto|eapply steps_cf; eauto|now apply noadd_soft]. Qed.
Lemma calm_reset s : Inv s -> calm s (reset s).
Proof.
  intro I. destruct (fl_reset s) eqn:F; [unfold reset; rewrite F; now apply calm_refl|].
  destruct (reset_split s I F) as (m & [S M] & P & R & PI & C & PE & LP & E). rewrite E.
  eapply calm_trans; [apply (calm_steps s m I S)|]. constructor; [eapply (estep_Inv true); [now constructor|exact M]|reflexivity|].
  intros e [X|X]; [discriminate|exact X].
Qed.

Section Strange.
(** The tokens, the keyed hash, and items that carry no registration the check accepts. *)
Variable x : cfg.
Definition strange (i : item) : Prop :=
  match i with
  | RMsg _ m => match m_body m with BReg false r => keys_ok x (r_keys r) = false | _ => True end
  | _ => True
  end.
Definition sealed (s : node) : Prop := x_tokens (cf s) = x_tokens x /\ x_mac (cf s) = x_mac x.
Lemma keys_sealed s ks : sealed s -> keys_ok (cf s) ks = keys_ok x ks.
Proof. intros [E1 E2]. unfold keys_ok, check_hash. now rewrite E1, E2. Qed.
Lemma sealed_calm s s' : calm s s' -> sealed s -> sealed s'.
Proof. intros [_ E _]. unfold sealed. now rewrite E. Qed.
Lemma calm_item c i s : Inv s -> c < nextc s -> nst s <> NCreated -> sealed s -> strange i -> calm s (recv_item c i s).
Proof.
  intros I L N S T. apply calm_steps; trivial. apply st_recv_item; trivial.
  unfold admitting, admitted. destruct i as [|?|? m]; try discriminate.
  unfold strange in T. destruct (m_body m) as [[] ?|[] ?|?|[] r|?|[] ?|]; try discriminate.
  rewrite (keys_sealed s _ S), T, Bool.andb_false_r. discriminate.
Qed.
Lemma nst_item a c i s : Inv s -> c < nextc s -> nst s <> NCreated -> (admitting s i = true -> a = true) ->
  nst (recv_item c i s) <> NCreated /\ c < nextc (recv_item c i s).
Proof.
  intros I L N A. pose proof (steps_grow a _ _ I (st_recv_item a c i s I L N A)) as G. split; [now apply (carry_n s)|].
  pose proof (G_c _ _ G). lia.
Qed.
Lemma calm_items n c : forall l s, Inv s -> c < nextc s -> nst s <> NCreated -> sealed s -> Forall strange l ->
  calm s (proc_items n c l s).
Proof.
  induction n as [|n IH]; intros l s I L N S F; cbn [proc_items]; [now apply calm_refl|].
  assert (RE : forall z, calm s (recv_item c (RErr z) s)) by (intro; now apply calm_item).
  destruct (k_kind (cs s c)); try apply RE. destruct l as [|i r]; [now apply calm_refl|].
  inversion F as [|? ? F1 F2]; subst. destruct i as [z|m|m w]; [apply RE| |].
  all: refine (calm_trans _ _ _ (calm_item c _ s I L N S F1) _);
    pose proof (calm_item c _ s I L N S F1) as C; lazymatch type of C with calm _ (recv_item _ ?i _) => destruct (nst_item true c i s I L N (fun _ => eq_refl)) as [N1 L1] end;
    apply IH; [apply C|exact L1|exact N1|eapply sealed_calm; eauto|exact F2].
Qed.
Lemma calm_proc_one s p : Inv s -> nst s <> NCreated -> sealed s -> Forall strange (snd p) -> calm s (proc_one s p).
Proof.
  intros I N S F. destruct p as [c l]. cbn [snd] in F. unfold proc_one. destruct (_ && _) eqn:E; [|now apply calm_refl].
  assert (L : c < nextc s).
  { apply kind_fresh; [assumption|]. apply andb_prop in E as [_ E]. destruct (k_kind (cs s c)); discriminate. }
  pose proof (calm_items (N.to_nat (x_loop (cf s))) c l s I L N S F) as C. cbv zeta.
  destruct (in_procs (proc_items _ c l s) c); [exact C|].
  eapply calm_trans; [exact C|]. apply calm_steps; [apply C|]. apply st_emit; exact Logic.I.
Qed.
Lemma calm_procs l : forall s, Inv s -> nst s <> NCreated -> sealed s -> Forall (fun p => Forall strange (snd p)) l ->
  calm s (fold_left proc_one l s).
Proof.
  induction l as [|p l IH]; intros s I N S F; cbn [fold_left]; [now apply calm_refl|]. inversion F; subst.
  pose proof (calm_proc_one s p I N S ltac:(assumption)) as C. eapply calm_trans; [exact C|]. apply IH; trivial; [apply C| |eapply sealed_calm; eauto].
  pose proof (steps_grow true _ _ I (st_proc_one s p I N)) as G. now apply (carry_n s).
Qed.
Definition strange_io (i : io) : Prop := match i with IRecv _ i => strange i | _ => True end.
Lemma calm_io i s : Inv s -> sealed s -> strange_io i -> calm s (io_step i s).
Proof.
  intros I S T. assert (C : nst s = NCreated \/ nst s <> NCreated) by (destruct (nst s); auto; right; discriminate).
  unfold io_step. destruct C as [C|C]; [rewrite C; now apply calm_refl|].
  assert (X : calm s (match i with
  | IConnected c z => if memb c (pend s) then connected_cb c z s else s
  | IListened c z => if memb c (lpend s) then listened c z s else s
  | IAccepted a => accepted a s
  | IClosed c => peer_closed c s
  | IWritten c z n => written c z n s
  | IRecv c i => match k_kind (cs s c) with KSock => recv_item c i s | _ => s end
  | IAcceptFailed => accept_failed s
  end)).
  { destruct i as [c z|c z|a|c|c z n|c i|].
    - destruct (memb c (pend s)) eqn:M; [|now apply calm_refl]. apply memb_in in M. apply calm_steps; trivial. now apply st_connected.
    - destruct (memb c (lpend s)) eqn:M; [|now apply calm_refl]. apply memb_in in M. apply calm_steps; trivial. now apply st_listened.
    - apply calm_steps; trivial. now apply st_accepted.
    - apply calm_steps; trivial. apply st_closed.
    - apply calm_steps; trivial. apply st_written.
    - destruct (k_kind (cs s c)) eqn:K; try now apply calm_refl. apply calm_item; auto.
      apply kind_fresh; [assumption|rewrite K; discriminate].
    - apply calm_steps; trivial. apply st_accept_failed. }
  destruct (nst s); [now apply calm_refl|exact X..].
Qed.
Lemma calm_ios l : forall s, Inv s -> sealed s -> Forall strange_io l -> calm s (fold_left (fun s i => io_step i s) l s).
Proof.
  induction l as [|i l IH]; intros s I S F; cbn [fold_left]; [now apply calm_refl|]. inversion F; subst.
  pose proof (calm_io i s I S ltac:(assumption)) as C. eapply calm_trans; [exact C|]. apply IH; trivial; [apply C|eapply sealed_calm; eauto].
Qed.
Lemma calm_round s : Inv s -> calm s (stop_if_shut (collect (fst (dispatch_self s)))).
Proof.
  intro I. pose proof (calm_steps _ _ I (st_dispatch_self false s I)) as C1.
  pose proof (calm_steps _ _ (Q_inv _ _ C1) (st_collect false _ (Q_inv _ _ C1))) as C2.
  eapply calm_trans; [exact C1|]. eapply calm_trans; [exact C2|]. unfold stop_if_shut.
  destruct (fl_shut _); [apply calm_reset, C2|apply calm_refl, C2].
Qed.
Lemma calm_down s : Inv s -> calm s (reset (fst (dispatch_self s))).
Proof.
  intro I. pose proof (calm_steps _ _ I (st_dispatch_self false s I)) as C1. eapply calm_trans; [exact C1|]. apply calm_reset, C1.
Qed.
Lemma calm_proc n now feed s s' : Inv s -> sealed s -> Forall (fun p => Forall strange (snd p)) feed ->
  proc n now feed s = Some s' -> calm s s'.
Proof.
  intros I S F. unfold proc. set (s1 := if sec s <? now then set_sec now s else s).
  assert (D : calm s s1 /\ now <= sec s1).
  { subst s1. destruct (N.ltb_spec (sec s) now) as [L|L]; [|split; [now apply calm_refl|exact L]].
    split; [apply calm_steps; trivial; apply st_sec; lia|cbn; lia]. }
  destruct D as [D W]. clearbody s1. cbv zeta.
  assert (C : nst s1 = NCreated \/ nst s1 <> NCreated) by (destruct (nst s1); auto; right; discriminate).
  destruct C as [C|C]; [rewrite C; now intros [= <-]|].
  intro X. assert (X' : (if fl_shut s1 then Some (reset (fst (dispatch_self s1)))
      else
        match ping_loop n now None (parent_op now (sweep (length (connecting (fold_left proc_one feed s1))) now (fold_left proc_one feed s1))) with
        | None => None
        | Some s => Some (stop_if_shut (collect (fst (dispatch_self s))))
        end) = Some s') by (destruct (nst s1); [now elim C|exact X..]).
  clear X. eapply calm_trans; [exact D|]. pose proof (sealed_calm _ _ D S) as S1. apply Q_inv in D. destruct (fl_shut s1).
  - injection X' as <-. now apply calm_down.
  - pose proof (calm_procs feed s1 D C S1 F) as D1.
    assert (W1 : now <= sec (fold_left proc_one feed s1)).
    { destruct (kc_fold proc_one kc_proc_one feed s1) as [_ _ E _]. now rewrite E. }
    set (s2 := fold_left proc_one feed s1) in *. clearbody s2. eapply calm_trans; [exact D1|]. apply Q_inv in D1.
    set (k := length _) in X'. clearbody k.
    pose proof (calm_steps _ _ D1 (st_sweep false now k s2 D1)) as D2.
    assert (W2 : now <= sec (sweep k now s2)) by (destruct (kc_sweep k now s2) as [_ _ E _]; now rewrite E).
    set (s3 := sweep k now s2) in *. clearbody s3. eapply calm_trans; [exact D2|]. apply Q_inv in D2.
    pose proof (calm_steps _ _ D2 (st_parent_op false now s3 D2)) as D3.
    assert (W3 : now <= sec (parent_op now s3)) by (destruct (kc_parent_op now s3) as [_ _ E _]; now rewrite E).
    set (s4 := parent_op now s3) in *. clearbody s4. eapply calm_trans; [exact D3|]. apply Q_inv in D3.
    destruct (ping_loop n now None s4) as [s5|] eqn:PL; [|discriminate]. injection X' as <-.
    assert (D4 : calm s4 s5).
    { apply calm_steps; trivial. apply (st_ping_loop false now n None s4 s5); [exact D3|exact W3|intros ? X; discriminate X|exact PL]. }
    eapply calm_trans; [exact D4|]. apply calm_round, D4.
Qed.
Lemma calm_listen a s : Inv s -> calm s (fst (listen a s)).
Proof.
  intro I. constructor; [eapply (steps_Inv true); [now apply st_listen|exact I]|eapply steps_cf, st_listen, I|].
  unfold listen. destruct (nst s); [apply noadd_refl|..].
  all: pose proof (created_unused s I) as U; pose proof (st_create false s) as S; destruct (conn_create s) as [s1 c]; cbn [fst snd] in U, S;
    pose proof (steps_Inv _ _ _ S I) as I1; pose proof (st_conn_listen false c a s1 I1 U) as S1; destruct (conn_listen c a s1) as [s2 r]; cbn [fst] in S1;
    pose proof (noadd_trans _ _ _ (steps_noadd _ _ I S) (steps_noadd _ _ I1 S1)) as A;
    destruct (r <? 0)%Z; [exact A|]; destruct (self s2) as [me|]; [|exact A];
    pose proof (noadd_soft _ _ (soft_addconn (e_ref me) c false s2)) as B; destruct (add_connection _ _ _ _) as [s3 ok]; cbn [fst] in B;
    destruct ok; eapply noadd_trans; try exact A; trivial; cbn [fst]; eapply noadd_trans; try exact B; apply noadd_same; fr1.
Qed.
Lemma calm_connect_ep a e s : Inv s -> 0 < e < nexte s -> calm s (fst (connect_ep a e s)).
Proof.
  intros I R. constructor; [eapply (steps_Inv true); [now apply st_connect_ep|exact I]|eapply steps_cf; now apply st_connect_ep|].
  unfold connect_ep. destruct (nst s); [apply noadd_refl|..].
  all: destruct (existsb _ _); [apply noadd_refl|]; pose proof (created_unused s I) as U; pose proof (st_create false s) as S; destruct (conn_create s) as [s1 c]; cbn [fst snd] in U, S;
    pose proof (steps_Inv _ _ _ S I) as I1; pose proof (st_conn_connect false c a s1 I1 U) as S1; destruct (conn_connect c a s1) as [s2 r]; cbn [fst] in S1;
    pose proof (noadd_trans _ _ _ (steps_noadd _ _ I S) (steps_noadd _ _ I1 S1)) as A;
    destruct (r <? 0)%Z; [exact A|]; set (b := _ || _);
    pose proof (noadd_soft _ _ (soft_addconn e c b s2)) as B; destruct (add_connection _ _ _ _) as [s3 ok]; cbn [fst] in *;
    eapply noadd_trans; try exact A; exact B.
Qed.
Lemma noadd_init i y s : Inv s -> noadd s (fst (init i y s)).
Proof.
  intro I. unfold init. set (s1 := match nst s with NCreated => s | _ => reset s end).
  assert (A : noadd s s1) by (subst s1; destruct (nst s); [apply noadd_refl|apply calm_reset, I..]).
  eapply noadd_trans; [exact A|]. cbv zeta. clearbody s1. destruct (endpoint_subnets i (x_nets y)) as [subs|].
  2: { cbn [fst]. intros e [X|X]; [discriminate|exact X]. }
  assert (E : log (fst (ep_create i subs (x_pid y) (x_host y) (set_cf y s1))) = log s1).
  { unfold ep_create. cbn [fst]. rewrite (keeps (f := log) (g := insert_ping _)). reflexivity. }
  destruct (ep_create _ _ _ _ _) as [s2 e]. cbn [fst] in E. cbv zeta. set (s3 := match self (set_cf y s1) with Some o => _ | None => _ end).
  assert (B : noadd s1 s3).
  { eapply noadd_trans; [apply (noadd_same s1 (set_self (Some e) s2)); exact E|]. subst s3. destruct (self _) as [o|]; [|apply noadd_refl].
    unfold ep_drop. destruct (ep_held _ _); [apply noadd_refl|]. apply noadd_soft, soft_ep_reset. }
  eapply noadd_trans; [exact B|]. clearbody s3. cbn [fst]. eapply noadd_trans; [apply noadd_soft, (soft_clear_ping (e_ref e))|]. now apply noadd_same.
Qed.
Definition strange_ev (ev : event) : Prop :=
  match ev with
  | EInit _ y => x_tokens y = x_tokens x /\ x_mac y = x_mac x
  | EProc _ feed => Forall (fun p => Forall strange (snd p)) feed
  | EPoll l => Forall strange_io l
  | EIo i => strange_io i
  | _ => True
  end.
Lemma cf_init i y s : cf (fst (init i y s)) = y.
Proof.
  unfold init. set (s1 := match nst s with NCreated => s | _ => reset s end). clearbody s1. cbv zeta.
  destruct (endpoint_subnets i (x_nets y)) as [subs|]; [|reflexivity].
  pose proof (kc_ep_create i subs (x_pid y) (x_host y) (set_cf y s1)) as [K _ _ _].
  destruct (ep_create _ _ _ _ _) as [s2 e]. cbn [fst] in K. cbv zeta. set (s3 := match self (set_cf y s1) with Some o => _ | None => _ end).
  assert (B : cf s3 = y) by (subst s3; destruct (self _) as [o|]; [rewrite (C_cf _ _ (kc_ep_drop _ _))|]; exact K). clearbody s3.
  cbn [fst set_nst set_qdata set_qcmd cf]. rewrite (C_cf _ _ (kc_clear_ping _ _)). exact B.
Qed.
Lemma strange_step n ev s s' : Inv s -> sealed s -> strange_ev ev -> step n ev s = Some s' -> noadd s s' /\ sealed s'.
Proof.
  intros I S T. assert (K : calm s s' -> noadd s s' /\ sealed s') by (intro C; split; [apply C|eapply sealed_calm; eauto]).
  unfold step, step_ret. destruct ev as [i y|now|a|a|a i|i|to ty b w q|to l q|z| |now feed|l|i|o l]; cbn [option_map fst];
    try (intros [= <-]).
  - split; [now apply noadd_init|]. unfold sealed. rewrite cf_init. exact T.
  - apply K. assert (C : nst s = NCreated \/ nst s <> NCreated) by (destruct (nst s); auto; right; discriminate).
    destruct C as [C|C]; [unfold start; rewrite C; now apply calm_refl|]. assert (C0 : calm s (set_sec now s)) by (constructor; [destruct I; now constructor|reflexivity|intros ? X; exact X]).
    eapply calm_trans; [exact C0|]. apply calm_steps; [apply C0|]. now apply st_start.
  - apply K. now apply calm_listen.
  - apply K, calm_steps; trivial. now apply st_connect.
  - apply K. destruct (get_endpoint s i) as [e|] eqn:E; [|now apply calm_refl]. apply calm_connect_ep; trivial.
    apply (I_tab s I). now apply (get_endpoint_tabled s i).
  - apply K, calm_steps; trivial. now apply st_node_disconnect.
  - apply K, calm_steps; trivial. now apply st_send_data.
  - apply K, calm_steps; trivial. now apply st_send_custom.
  - apply K, calm_steps; trivial. apply st_shut.
  - apply K. now apply calm_reset.
  - destruct (proc n now feed s) as [s1|] eqn:P; [|discriminate]. intros [= <-]. apply K. eapply calm_proc; eauto.
  - apply K. unfold poll. destruct (fl_shut s); [now apply calm_down|]. pose proof (calm_ios l s I S T) as C.
    eapply calm_trans; [exact C|apply calm_round, C].
  - apply K. now apply calm_io.
  - apply K, calm_steps; trivial. eapply steps_trans; [apply (st_orc false o)|apply st_salts].
Qed.
Theorem strange_run n evs : forall s s', good s -> sealed s -> Forall strange_ev evs -> run n evs s = Some s' -> noadd s s'.
Proof.
  induction evs as [|ev r IH]; intros s s' G S F; cbn [run]; [intros [= <-]; apply noadd_refl|]. inversion F; subst.
  destruct (step n ev s) as [s1|] eqn:E; [|discriminate]. intro R.
  destruct (strange_step n ev s s1 (proj1 G) S ltac:(assumption) E) as [A S1]. pose proof (good_step n ev s s1 G E) as D.
  eapply noadd_trans; [exact A|]. eapply IH; [exact D|exact S1|assumption|exact R].
Qed.
End Strange.
Theorem never_added n i y evs s : Forall (strange_ev y) evs -> run n (EInit i y :: evs) new_node = Some s ->
  forall e, ~ In (TAdded e) (log s).
Proof.
  intros F R e A. cbn [run] in R. destruct (step n (EInit i y) new_node) as [s1|] eqn:E; [|discriminate].
  pose proof (good_step _ _ _ _ good_new E) as D. cbn in E. injection E as E.
  assert (S : sealed y s1). { rewrite <- E. unfold sealed. rewrite cf_init. auto. }
  apply (strange_run y n evs s1 s D S F R) in A. rewrite <- E in A.
  apply (noadd_init i y new_node new_node_Inv) in A. destruct A.
Qed.
Lemma unnotified_absent s : reachable s -> (forall e, ~ In (TAdded e) (log s)) -> parent s = None /\ routes s = [].
Proof.
  intros R H. assert (A : forall e, absent s e).
  { intro e. pose proof (N_hist s (reachable_noticed s R) e) as X.
    assert (T : ~ In true (notified e (rev (log s)))).
    { intro T. unfold notified in T. apply in_flat_map in T as (t & T1 & T2). apply in_rev in T1.
      destruct t; cbn in T2; try contradiction; destruct (N.eqb_spec e0 e) as [D|D]; try (now destruct T2 as [T2|[]]); try contradiction.
      subst e0. now apply (H e). }
    revert T. destruct X; intro T; [assumption|elim T; cbn; auto|assumption]. }
  split.
  - destruct (parent s) as [p|] eqn:P; [|reflexivity]. destruct (A (e_ref p)) as [X _]. now elim (X p P).
  - destruct (routes s) as [|p l] eqn:P; [reflexivity|]. destruct (A (e_ref (snd p))) as [_ X]. rewrite P in X.
    elim (proj1 (entries_none _ _) X p); [now left|reflexivity].
Qed.
