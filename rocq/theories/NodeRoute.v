(** The routing table of a node whose endpoints are well configured: it finds the
    registered endpoint that covers an id whenever there is one. *)
From Verif Require Import Base Subnet SubnetSpec SubnetProof Route RouteProof Address NodeTypes NodeConn NodeCore NodeMsg Node
  NodeFrame NodeReset NodeInv NodeKeep NodeSteps NodeReach NodeSpec NodeLog NodeNotice.
Local Open Scope N_scope.
Ltac Zify.zify_post_hook ::= idtac.

(** Every endpoint that was ever added has separate ranges, one of which holds its id. *)
Definition settled (s : node) : Prop := forall e, In (TAdded e) (log s) -> good_ep (d_ep (es s e)).
Definition present (s : node) (e : N) : Prop :=
  (exists p, parent s = Some p /\ e_ref p = e) \/ exists p, In p (routes s) /\ e_ref (snd p) = e.
Definition routed_ok (s : node) : Prop := settled s ->
  (exists live, Sim (routes s) live) /\ forall e, notified e (rev (log s)) = [true] -> present s e.

Lemma settled_back s s' l : Inv s -> grow s s' -> noticed s -> log s' = l ++ log s -> settled s' -> settled s.
Proof.
  intros I G N L S e A. rewrite <- (G_ep _ _ G).
  - apply S. rewrite L. apply in_or_app. now right.
  - split; [|apply (I_log s I); now left].
    destruct (N.eq_dec e 0) as [->|]; [|lia]. exfalso.
    assert (X : In true (notified 0 (rev (log s)))); [|now rewrite (N_pos s N) in X].
    unfold notified. apply in_flat_map. exists (TAdded 0). split; [now apply in_rev in A|]. now left.
Qed.
Lemma ro_log l s s' : Inv s -> grow s s' -> noticed s -> log s' = l ++ log s -> Forall mute l ->
  parent s' = parent s -> routes s' = routes s -> routed_ok s -> routed_ok s'.
Proof.
  intros I G N L F P R H S. destruct (H (settled_back s s' l I G N L S)) as [A B].
  split; [now rewrite R|]. intro e. rewrite L, notified_mute by exact F. unfold present. rewrite P, R. apply B.
Qed.
Lemma ro_same s s' : Inv s -> grow s s' -> noticed s -> log s' = log s -> parent s' = parent s -> routes s' = routes s ->
  routed_ok s -> routed_ok s'.
Proof. intros I G N L. now apply (ro_log []). Qed.

Lemma sim_insert c live e t : Sim c live -> good_ep e -> insert_child c e = (true, t) -> Sim t (e :: live).
Proof.
  intros SIM Go E. unfold insert_child in E. destruct (check_conflicts _ _) eqn:C; [discriminate|]. injection E as <-.
  destruct SIM as [G S I L]. destruct Go as (G1 & G2 & G3). rewrite check_conflicts_exact in C by assumption.
  destruct (set_all (e_subs e) e c G S G1 G2 C) as (G' & S' & I').
  constructor; [exact G'|exact S'| |constructor; [split; auto|exact L]].
  intros r x. rewrite I', I. cbn [fst snd In]. split.
  - intros [[A B]|[-> B]]; auto.
  - intros [[->|A] B]; auto.
Qed.
Lemma child_in c i e : child_at c i = Some e -> exists k, In (k, e) c /\ lower_bound c (point i) = Some (k, e).
Proof.
  unfold child_at. destruct (lower_bound c (point i)) as [[k y]|] eqn:B; [|discriminate]. intros [= ->].
  exists k. split; [|reflexivity].
  clear -B. revert B. induction c as [|[r z] c IH]; cbn [lower_bound]; [discriminate|].
  destruct (range_ltb r _); [right; auto|]. intro X. injection X as -> ->. now left.
Qed.
Lemma sim_remove c live i ex t e : Sim c live -> remove_child c i ex = (true, t) -> child_at c i = Some e ->
  (exists live', Sim t live') /\ (forall p, In p c -> snd p <> e -> In p t).
Proof.
  intros SIM R C. destruct (child_in c i e C) as (k & Q & B). split.
  - destruct (sim_step c live (RRem i ex) SIM Logic.I) as (l' & _ & _ & X). cbn [route_step] in X. rewrite R in X. eauto.
  - unfold remove_child in R. rewrite B in R.
    assert (E : t = fold_left coll_erase (e_subs e) c) by (destruct (negb _); [discriminate|]; destruct ex; [destruct (negb _)|]; congruence).
    pose proof (proj1 (sim_in _ _ SIM k e) Q) as [He _].
    pose proof (sim_ep _ _ SIM) as L. rewrite Forall_forall in L. destruct (L e He) as (G1 & G2 & _).
    destruct (erase_all (e_subs e) e c (sim_good _ _ SIM) (sim_sep _ _ SIM) G1 G2) as (_ & _ & I').
    { intros r' Hr'. apply (sim_in _ _ SIM). auto. }
    intros [r x] P N. rewrite E. apply I'. split; [exact P|]. cbn [snd] in *. intuition.
Qed.

Lemma ro_rmparent s s' p l : Inv s -> grow s s' -> noticed s -> parent s = Some p -> log s' = l ++ log s ->
  tells (TRemoved (e_ref p)) s s' -> routes s' = routes s -> routed_ok s -> routed_ok s'.
Proof.
  intros I G N P L T R H S. destruct (H (settled_back s s' l I G N L S)) as [A B].
  split; [now rewrite R|]. intros e X. rewrite T in X. cbn [about] in X. destruct (N.eqb_spec (e_ref p) e) as [D|D]; [subst e|].
  - exfalso. destruct (notified _ _) as [|b [|]]; discriminate.
  - rewrite app_nil_r in X. destruct (B e X) as [(q & Q & E)|Q]; [congruence|]. right. now rewrite R.
Qed.
Lemma ro_rmchild s s' i ex t e l : Inv s -> grow s s' -> noticed s -> remove_child (routes s) i ex = (true, t) ->
  child_at (routes s) i = Some e -> log s' = l ++ log s ->
  tells (TRemoved (e_ref e)) s s' -> parent s' = parent s -> routes s' = t -> routed_ok s -> routed_ok s'.
Proof.
  intros I G N RM CH L T P R H S. destruct (H (settled_back s s' l I G N L S)) as [(live & A) B].
  destruct (sim_remove _ _ _ _ _ _ A RM CH) as [C K].
  split; [now rewrite R|]. intros x X. rewrite T in X. cbn [about] in X. destruct (N.eqb_spec (e_ref e) x) as [D|D]; [subst x|].
  - exfalso. destruct (notified _ _) as [|b [|]]; discriminate.
  - rewrite app_nil_r in X. destruct (B x X) as [Q|(q & Q & E)]; [left; now rewrite P|]. right. rewrite R.
    exists q. split; [|exact E]. apply K; [exact Q|]. congruence.
Qed.
Lemma ro_add s s' x l : Inv s -> grow s s' -> noticed s -> alive s x -> log s' = l ++ log s ->
  tells (TAdded (e_ref x)) s s' -> In (TAdded (e_ref x)) (log s') ->
  (parent s' = Some x /\ parent s = None /\ routes s' = routes s) \/
  (parent s' = parent s /\ insert_child (routes s) x = (true, routes s')) ->
  routed_ok s -> routed_ok s'.
Proof.
  intros I G N AL L T IN C H S. destruct (H (settled_back s s' l I G N L S)) as [(live & A) B].
  assert (Go : good_ep x).
  { specialize (S _ IN). rewrite (G_ep _ _ G) in S by apply AL. now rewrite (proj2 AL) in S. }
  destruct C as [(C1 & C2 & C3)|(C1 & C2)].
  - split; [rewrite C3; eauto|]. intros e X. rewrite T in X. cbn [about] in X. destruct (N.eqb_spec (e_ref x) e) as [D|D]; [subst e|].
    + left. eauto.
    + rewrite app_nil_r in X. destruct (B e X) as [(q & Q & E)|Q]; [congruence|]. right. now rewrite C3.
  - pose proof (sim_insert _ _ _ _ A Go C2) as A'. split; [eauto|].
    intros e X. rewrite T in X. cbn [about] in X. destruct (N.eqb_spec (e_ref x) e) as [D|D]; [subst e|].
    + right. destruct Go as (_ & _ & r & Hr & _). exists (r, x). split; [|reflexivity]. apply (sim_in _ _ A'). split; [now left|exact Hr].
    + rewrite app_nil_r in X. destruct (B e X) as [(q & Q & E)|(q & Q & E)]; [left; rewrite C1; eauto|]. right.
      exists q. split; [|exact E]. destruct q as [r y]. apply (sim_in _ _ A) in Q. apply (sim_in _ _ A'). split; [right|]; tauto.
Qed.
Lemma ro_purge s : Inv s -> grow s (purge s) -> noticed s -> noticed (purge s) -> routed_ok s -> routed_ok (purge s).
Proof.
  intros I G N N' H S.
  assert (L : forall l s0, log (fold_left (fun s e => emit (TRemoved e) s) l s0) = rev (map TRemoved l) ++ log s0 /\
    parent (fold_left (fun s e => emit (TRemoved e) s) l s0) = parent s0 /\ routes (fold_left (fun s e => emit (TRemoved e) s) l s0) = routes s0).
  { induction l as [|e l IH]; intro s0; [now repeat split|]. cbn [fold_left]. destruct (IH (emit (TRemoved e) s0)) as (A & B & C).
    rewrite A, B, C. cbn [map rev]. rewrite <- app_assoc. now repeat split. }
  destruct (L (map (fun p => e_ref (snd p)) (routes s)) (set_routes [] s)) as (A & B & C). fold (purge s) in A, B, C.
  cbn [log set_routes parent routes] in A, B, C. clear L.
  destruct (H (settled_back s _ _ I G N A S)) as [_ K].
  split; [rewrite C; exists []; apply sim_empty|]. intros e X.
  assert (Y : notified e (rev (log s)) = [true] /\ ~ In (TRemoved e) (map TRemoved (map (fun p => e_ref (snd p)) (routes s)))).
  { rewrite A, rev_app_distr, rev_involutive in X. unfold notified in X. rewrite flat_map_app in X. fold (notified e (rev (log s))) in X.
    set (rs := map _ (map _ _)) in *.
    assert (F : forall b, In b (flat_map (about e) rs) -> b = false).
    { intros b Q. apply in_flat_map in Q as (t & Q1 & Q2). subst rs. apply in_map_iff in Q1 as (z & <- & _). cbn in Q2.
      destruct (_ =? _); cbn in Q2; intuition. }
    assert (E : flat_map (about e) rs = []).
    { destruct (notified e (rev (log s))) as [|a n]; [exfalso|cbn in X; injection X as -> X; now apply app_eq_nil in X].
      cbn in X. assert (true = false); [|discriminate]. apply F. rewrite X. now left. }
    rewrite E, app_nil_r in X. split; [exact X|]. intro Q.
    assert (Z : In false (flat_map (about e) rs)); [|now rewrite E in Z].
    apply in_flat_map. exists (TRemoved e). split; [exact Q|]. cbn. rewrite N.eqb_refl. now left. }
  destruct Y as [Y1 Y2]. destruct (K e Y1) as [(p & Q & E)|(p & Q & E)].
  - left. exists p. now rewrite B.
  - elim Y2. apply in_map. rewrite <- E. now apply (in_map (fun p => e_ref (snd p))).
Qed.
Lemma micro_ro a s s' : Inv s -> noticed s -> micro a s s' -> routed_ok s -> routed_ok s'.
Proof.
  intros I NO M. pose proof (micro_grow a s s' I M) as G. pose proof (micro_noticed a s s' I M NO) as NO'. revert G NO NO'.
  destruct M as [s s' C|v s V|s N|z s|t s T|s|c f s|l s|c m s|c z n s|c s|g e s|e c b s|e f s|i subs p h s|x s _ N A I0
    |i ex s|p s P|i ex t e s R C|s|l s|l s|l s|c s|c s|e s|x s|v s|e s|e s]; intros G NO NO';
    try (now apply ro_same); try (apply ro_same; trivial; now (reflexivity || fr1)).
  - destruct C as (E1 & E2 & E3 & E4 & E5 & E6 & E7 & E8 & E9 & E10 & E11 & E12 & E13 & E14 & E15 & E16 & E17 & E18).
    now apply ro_same.
  - unfold on_actived in *. cbn [fl_act set_nst] in *. destruct (fl_act s); [now apply ro_same|].
    apply (ro_log [TUp]); trivial. now repeat constructor.
  - unfold shutdown in *. destruct (fl_shut s); [trivial|]. cbn [fl_act set_fl_shut] in *. destruct (fl_act s); [|now apply ro_same].
    apply (ro_log [TDown z]); trivial. now repeat constructor.
  - apply (ro_log [t]); trivial. constructor; [|constructor]. destruct t; try exact Logic.I; contradiction.
  - destruct (push_log c m s) as [L|[r L]].
    + apply ro_same; trivial; fr1.
    + apply (ro_log [TSend c m (x_size (cf s) m) r]); trivial; [constructor; [exact Logic.I|constructor]|fr1|fr1].
  - unfold written in *. destruct (linked s c); [|trivial]. cbv zeta in *.
    apply (ro_log [TWrote c z n]); trivial; destruct (_ =? _)%Z; try reflexivity; now repeat constructor.
  - destruct (soft_mute _ _ (soft_conn_reset c s)) as (l & L & F). apply (ro_log l); trivial; fr1.
  - destruct (soft_mute _ _ (soft_ep_reset None g e s)) as (l & L & F). apply (ro_log l); trivial; fr1.
  - destruct (soft_mute _ _ (soft_addconn e c b s)) as (l & L & F). apply (ro_log l); trivial; fr1.
  - unfold add_endpoint in *. destruct (fl_reset s); [trivial|]. destruct (_ && _).
    + destruct (parent s) eqn:P; [trivial|]. cbv zeta in *. cbn [fst] in *. set (s2 := add_ping x (set_parent (Some x) s)) in *.
      assert (Q : log s2 = log s /\ parent s2 = Some x /\ routes s2 = routes s) by (subst s2; split; [|split]; fr1).
      clearbody s2. destruct Q as (Q1 & Q2 & Q3).
      assert (X : exists l, log (emit (TAdded (e_ref x)) (if (nstate_eqb (nst s2) NLost || nstate_eqb (nst s2) NConnecting) && fl_preg s2 then on_actived s2 else s2)) = TAdded (e_ref x) :: l ++ log s /\ Forall mute l).
      { destruct (_ && _); [unfold on_actived; cbn [fl_act set_nst]; destruct (fl_act s2)|].
        - exists []. cbn. now rewrite Q1.
        - exists [TUp]. cbn. rewrite Q1. now repeat constructor.
        - exists []. cbn. now rewrite Q1. }
      destruct X as (l & X & F). apply (ro_add s _ x (TAdded (e_ref x) :: l)); trivial.
      * now apply (tells_log _ [] l).
      * rewrite X. now left.
      * left. split; [|split; [exact P|]]; destruct (_ && _); unfold on_actived; cbn [fl_act set_nst]; try (destruct (fl_act s2)); assumption.
    + destruct (_ && _); [trivial|]. destruct (insert_child _ _) as [[] t] eqn:E; [|trivial]. cbn [fst] in *.
      apply (ro_add s _ x [TAdded (e_ref x)]); trivial; try fr1; [apply (tells_log _ [] []); [cbn; fr1|constructor|constructor]| |].
      * rewrite (keeps (f := log) (g := add_ping x)). now left.
      * right. split; [fr1|]. rewrite E. f_equal. symmetry. fr1.
  - unfold remove_endpoint in *. destruct (is_parent s i).
    + destruct (parent s) as [p|] eqn:P; [|trivial]. destruct (match ex with Some _ => _ | None => _ end); [trivial|]. cbv zeta in *. cbn [fst] in *.
      cbn [fl_act emit set_log set_popr set_nst set_parent] in *. unfold fatal_shutdown, shutdown in *.
      cbn [fl_shut emit set_log set_popr set_nst set_parent set_fl_shut fl_act] in *.
      destruct (fl_act s) eqn:A; try destruct (fl_shut s); try rewrite A in *; apply (ro_rmparent s _ p [TRemoved (e_ref p)]); trivial;
        now apply (tells_log _ [] []).
    + destruct (_ =? _); [trivial|]. destruct (remove_child _ _ _) as [[] t] eqn:R; [|trivial].
      destruct (child_at _ _) eqn:C; [|trivial]. cbn [fst] in *.
      apply (ro_rmchild s _ i ex t e [TRemoved (e_ref e)]); trivial. now apply (tells_log _ [] []).
  - apply (ro_rmparent s _ p [TRemoved (e_ref p)]); trivial. now apply (tells_log _ [] []).
  - apply (ro_rmchild s _ i ex t e [TRemoved (e_ref e)]); trivial. now apply (tells_log _ [] []).
  - now apply ro_purge.
  - apply (ro_log [TFault e (e_id (d_ep (es s e))) (x_tol (cf s))]); trivial. constructor; [exact Logic.I|constructor].
  - apply (ro_log [TGood e]); trivial. constructor; [exact Logic.I|constructor].
Qed.
Lemma estep_ro s s' : Inv s -> estep true s s' -> noticed s /\ routed_ok s -> noticed s' /\ routed_ok s'.
Proof.
  intros I E [NO RO]. split; [eapply estep_noticed; eauto|]. pose proof RO as RO'. revert RO'.
  destruct E as [v s _|a s s' M|s P R PI C PE LP|x s N|e s N A].
  - apply ro_same; trivial. now apply grow_same.
  - eapply micro_ro; eauto.
  - intros _ S. assert (S0 : settled s).
    { intros e X. apply (S e). right. exact X. }
    destruct (RO S0) as [X Y]. split; [exact X|]. intro e. change (log (finish s)) with ([TReset] ++ log s).
    rewrite notified_mute by now repeat constructor. apply Y.
  - apply ro_same; trivial. now apply grow_same.
  - apply ro_same; trivial. now apply grow_same.
Qed.
Theorem reachable_routed s : reachable s -> routed_ok s.
Proof.
  intro R. apply (reachable_ind (fun s => noticed s /\ routed_ok s)) in R; [apply R| |apply estep_ro].
  split; [apply reachable_noticed; exists O, []; reflexivity|]. intros _. split; [exists []; apply sim_empty|]. discriminate.
Qed.
(** The lookup, for well-configured endpoints. *)
Definition covers (x : ep) (id : N) : Prop := exists r, In r (e_subs x) /\ g_min r <= id <= g_max r.
Lemma ep_is_child_covers x id : e_id x <> 0 -> id <> 0 -> (ep_is_child (e_id x) (e_subs x) id = true <-> covers x id).
Proof.
  intros N0 I0. unfold ep_is_child. apply N.eqb_neq in N0. rewrite N0, existsb_exists. unfold covers, contain_id.
  apply N.eqb_neq in I0. rewrite I0. split.
  - intros (r & R & X). exists r. split; [exact R|]. apply andb_prop in X. rewrite !N.leb_le in X. tauto.
  - intros (r & R & X). exists r. split; [exact R|]. apply andb_true_intro. rewrite !N.leb_le. tauto.
Qed.
Lemma find_route_in c id e : find_route c id = Some e -> exists r, In (r, e) c.
Proof.
  unfold find_route. destruct (lower_bound c (point id)) as [[k y]|] eqn:B; [|discriminate]. intro E.
  assert (y = e) by (destruct (_ =? _); [|destruct (contain_id _ _)]; congruence). subst y. exists k.
  destruct (child_in c id e) as (k' & Q & B'); [unfold child_at; now rewrite B|]. now rewrite B in B'; injection B' as <-.
Qed.
Theorem lookup_spec s id : reachable s -> settled s ->
  (forall x, find_route (routes s) id = Some x -> (exists r, In (r, x) (routes s)) /\ covers x id) /\
  (find_route (routes s) id = None -> forall p, In p (routes s) -> ~ covers (snd p) id).
Proof.
  intros R S. destruct (reachable_routed s R S) as [(live & SIM) _]. pose proof (sim_find _ _ id SIM) as F. split.
  - intros x E. split; [eapply find_route_in; eauto|]. rewrite E in F. cbn in F.
    destruct (find (servesb id) (map abs live)) as [y|] eqn:Y; [|discriminate]. cbn in F. injection F as F.
    apply find_some in Y as [Y1 Y2]. apply in_map_iff in Y1 as (z & <- & Z). cbn in F.
    destruct (find_route_in _ _ _ E) as (r & Q). pose proof (tab_route s _ (reachable_Inv s R) Q) as [_ D1]. cbn [snd] in D1.
    assert (Q' : exists r, In (r, z) (routes s)).
    { pose proof (sim_ep _ _ SIM) as L. rewrite Forall_forall in L. destruct (L z Z) as (_ & _ & r' & Hr & _). exists r'. apply (sim_in _ _ SIM). auto. }
    destruct Q' as (r' & Q'). pose proof (tab_route s _ (reachable_Inv s R) Q') as [_ D2]. cbn [snd] in D2.
    assert (z = x) by congruence. subst z. now apply serves_in in Y2.
  - intros E [r x] P C. rewrite E in F. cbn in F. cbn [snd] in C.
    destruct (find (servesb id) (map abs live)) as [y|] eqn:Y; [discriminate|].
    apply (sim_in _ _ SIM) in P as [P _]. pose proof (find_none _ _ Y (abs x) (in_map abs _ _ P)) as Z.
    assert (servesb id (abs x) = true) by now apply serves_in. congruence.
Qed.
