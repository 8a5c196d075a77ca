(** Histories of a node: every state that can be reached satisfies the invariant. *)
From Verif Require Import Base Subnet Route Address NodeTypes NodeConn NodeCore NodeMsg Node
  NodeFrame NodeReset NodeInv NodeKeep NodeSteps NodeCtx.
Local Open Scope N_scope.
Ltac Zify.zify_post_hook ::= idtac.

(** ** The end of [reset] *)
Definition finish (s : node) : node :=
  emit TReset (set_qdata [] (set_qcmd [] (set_fl_reset false (set_fl_gcreset false (set_fl_act false
    (set_fl_preg false (set_fl_shut false (set_fl_self false (set_fl_gce false (set_fl_gcc false
    (set_nst NCreated s))))))))))).

Lemma gen_keys_eq ts : forall s, exists v, fst (gen_keys ts s) = set_salts v s.
Proof.
  induction ts as [|t r IH]; intro s; cbn [gen_keys fst].
  - exists (salts s). now destruct s.
  - assert (E : exists v, fst (take_salt s) = set_salts v s).
    { unfold take_salt. destruct (salts s) as [|x l] eqn:S; cbn [fst]; [|now exists l]. exists []. rewrite <- S. now destruct s. }
    destruct E as [v E]. destruct (take_salt s) as [s1 a]. cbn [fst] in E. subst s1.
    destruct (x_mac _ _ _) as [x y]. destruct (IH (set_salts v s)) as [w W].
    destruct (gen_keys r (set_salts v s)) as [s2 ks]. cbn [fst] in *. subst s2. now exists w.
Qed.
Section keep_lists.
Context {T : Type} (f : node -> T).
Context (Hs : forall v s, f (set_salts v s) = f s) (Hl : forall t s, f (emit t s) = f s)
  (H1 : Keeps2 f alloc_seq) (H2 : forall c m, Keeps2 f (send_on c m)) (H3 : forall c, Keeps f (conn_reset c)).
Lemma keep_send_reg rsp c z q s : f (fst (send_reg rsp c z q s)) = f s.
Proof.
  unfold send_reg. destruct (self s); [|reflexivity]. destruct (gen_keys_eq (x_tokens (cf s)) s) as [v V].
  destruct (gen_keys _ s) as [s1 ks]. cbn [fst] in V. subst s1. etransitivity; [apply (H2 c)|apply Hs].
Qed.
Lemma keep_new c s : f (on_new_connection c s) = f s.
Proof.
  unfold on_new_connection. destruct (_ && _); [|apply Hl].
  pose proof (H1 (emit (TNew c) s)) as E1. destruct (alloc_seq _) as [s1 q]. cbn [fst] in E1.
  pose proof (keep_send_reg false c 0%Z q s1) as E2. destruct (send_reg _ _ _ _ _) as [s2 r]. cbn [fst] in E2.
  transitivity (f s2); [destruct (r <? 0)%Z; [apply (H3 c)|reflexivity]|]. rewrite E2, E1. apply Hl.
Qed.
End keep_lists.
Lemma pend_new c s : pend (on_new_connection c s) = pend s.
Proof. apply keep_new; trivial; exact _. Qed.
Lemma lpend_new c s : lpend (on_new_connection c s) = lpend s.
Proof. apply keep_new; trivial; exact _. Qed.
Lemma pend_connected c z s : pend (connected_cb c z s) = rm c (pend s).
Proof.
  unfold connected_cb. rewrite (keeps (f := pend) (g := conn_drop c)). destruct (z <? 0)%Z.
  - now rewrite (keeps (f := pend) (g := conn_reset c)).
  - rewrite pend_new. change (pend (on_c c ?f ?s)) with (pend s).
    now rewrite (keeps (f := pend) (g := set_status c _)).
Qed.
Lemma lpend_connected c z s : lpend (connected_cb c z s) = lpend s.
Proof.
  unfold connected_cb. rewrite (keeps (f := lpend) (g := conn_drop c)). destruct (z <? 0)%Z.
  - now rewrite (keeps (f := lpend) (g := conn_reset c)).
  - rewrite lpend_new. change (lpend (on_c c ?f ?s)) with (lpend s).
    now rewrite (keeps (f := lpend) (g := set_status c _)).
Qed.
Lemma pend_listened c z s : pend (listened c z s) = pend s.
Proof.
  unfold listened, listen_cb. rewrite (keeps (f := pend) (g := conn_drop c)). destruct (z <? 0)%Z.
  - now rewrite (keeps (f := pend) (g := set_status c _)).
  - rewrite pend_new. change (pend (on_c c ?f ?s)) with (pend s).
    now rewrite (keeps (f := pend) (g := set_status c _)).
Qed.
Lemma lpend_listened c z s : lpend (listened c z s) = rm c (lpend s).
Proof.
  unfold listened, listen_cb. rewrite (keeps (f := lpend) (g := conn_drop c)). destruct (z <? 0)%Z.
  - now rewrite (keeps (f := lpend) (g := set_status c _)).
  - rewrite lpend_new. change (lpend (on_c c ?f ?s)) with (lpend s).
    now rewrite (keeps (f := lpend) (g := set_status c _)).
Qed.
Lemma rm_head c l : NoDup (c :: l) -> rm c (c :: l) = l.
Proof.
  intro D. inversion D as [|x y N1 N2]; subst. unfold rm. cbn [filter]. rewrite N.eqb_refl. cbn [negb].
  apply filter_true. intros x X. destruct (N.eqb_spec x c) as [->|]; [contradiction|reflexivity].
Qed.
Lemma st_finish_connects a l : forall s, Inv s -> pend s = l ->
  steps a s (finish_connects l s) /\ pend (finish_connects l s) = [] /\ lpend (finish_connects l s) = lpend s.
Proof.
  induction l as [|c r IH]; intros s H E; cbn [finish_connects]; [split; [apply steps_refl|auto]|].
  pose proof (st_orc1 a s) as S. assert (P1 : pend (fst (take_orc s)) = c :: r) by (rewrite (keeps2 (f := pend)); exact E).
  assert (L1 : lpend (fst (take_orc s)) = lpend s) by fr1. rewrite <- L1. clear L1.
  destruct (take_orc s) as [s1 z]. cbn [fst] in *. pose proof (steps_Inv _ _ _ S H) as H1.
  assert (S2 : steps a s1 (connected_cb c z s1)) by (apply st_connected; [assumption|rewrite P1; now left]).
  destruct (IH (connected_cb c z s1)) as (A & B & C).
  - eapply steps_Inv; eauto.
  - rewrite pend_connected, P1. apply rm_head. rewrite <- P1. pose proof (I_pend s1 H1) as D.
    clear - D. induction (pend s1) as [|x y IHy]; [constructor|]. cbn in D. inversion D; subst.
    constructor; [|now apply IHy]. intro X. apply H1. apply in_app_iff. auto.
  - repeat split; [|exact B|now rewrite C, lpend_connected]. eapply steps_trans; [exact S|]. eapply steps_trans; eauto.
Qed.
Lemma st_finish_listens a l : forall s, Inv s -> lpend s = l ->
  steps a s (finish_listens l s) /\ lpend (finish_listens l s) = [] /\ pend (finish_listens l s) = pend s.
Proof.
  induction l as [|c r IH]; intros s H E; cbn [finish_listens]; [split; [apply steps_refl|auto]|].
  pose proof (st_orc1 a s) as S. assert (P1 : lpend (fst (take_orc s)) = c :: r) by (rewrite (keeps2 (f := lpend)); exact E).
  assert (L1 : pend (fst (take_orc s)) = pend s) by fr1. rewrite <- L1. clear L1.
  destruct (take_orc s) as [s1 z]. cbn [fst] in *. pose proof (steps_Inv _ _ _ S H) as H1.
  assert (S2 : steps a s1 (listened c z s1)) by (apply st_listened; [assumption|rewrite P1; now left]).
  destruct (IH (listened c z s1)) as (A & B & C).
  - eapply steps_Inv; eauto.
  - rewrite lpend_listened, P1. apply rm_head. rewrite <- P1. pose proof (I_pend s1 H1) as D.
    clear - D. induction (pend s1) as [|x y IHy]; [exact D|]. apply IHy. now inversion D.
  - repeat split; [|exact B|now rewrite C, pend_listened]. eapply steps_trans; [exact S|]. eapply steps_trans; eauto.
Qed.

(** ** [reset] is a sequence of small steps followed by [finish] *)
Lemma st_drain a n : forall s, Inv s -> steps a s (drain n s).
Proof. induction n as [|n IH]; intros s H; cbn [drain]; go. Qed.
Lemma st_drop_connecting a n : forall s, Inv s -> steps a s (drop_connecting n s).
Proof.
  induction n as [|n IH]; intros s H; cbn [drop_connecting]; [apply steps_refl|].
  destruct (connecting s) as [|[t c] r] eqn:C; [apply steps_refl|].
  assert (S : steps a s (conn_reset c s)) by eauto with st. cbv zeta. mvn S s1.
  assert (S : steps a s1 (match connecting s1 with
                   | (t, c') :: r => if c' =? c then set_connecting r s1 else s1
                   | [] => s1 end)).
  { destruct (connecting s1) as [|[t' c'] r'] eqn:C1; [apply steps_refl|]. destruct (c' =? c); [|apply steps_refl].
    apply st_timers. rewrite C1. apply sub_tail. }
  mvn S s2. now apply IH.
Qed.
(** Once there is no parent, or no route, a sequence that adds no endpoint keeps it so. *)
Lemma noadd_parent s s' : micro false s s' -> parent s = None -> parent s' = None.
Proof.
  intros M P. destruct M; try discriminate; try exact P; try reflexivity;
    try (match goal with |- parent (fst (?h ?z)) = _ => rewrite (keeps2 (f := parent) (h := h)); exact P
         | |- parent (?g ?z) = _ => rewrite (keeps (f := parent) (g := g)); exact P end).
  - destruct H as (? & ? & ? & E & ?). now rewrite E.
  - unfold remove_endpoint, is_parent. rewrite P.
    destruct (my_id s =? 0); (destruct (my_id s =? i); [exact P|]; destruct (remove_child _ _ _) as [[] t]; [|exact P];
      destruct (child_at _ _); exact P).
  - unfold purge. generalize (map (fun p : range * ep => e_ref (snd p)) (routes s)). intro l.
    assert (P' : parent (set_routes [] s) = None) by exact P. revert P'. generalize (set_routes [] s).
    induction l as [|x l IH]; intros s1 P1; cbn [fold_left]; [exact P1|]. apply IH. exact P1.
Qed.
Lemma noadd_routes s s' : micro false s s' -> routes s = [] -> routes s' = [].
Proof.
  intros M P. destruct M; try discriminate; try exact P; try reflexivity;
    try (match goal with |- routes (fst (?h ?z)) = _ => rewrite (keeps2 (f := routes) (h := h)); exact P
         | |- routes (?g ?z) = _ => rewrite (keeps (f := routes) (g := g)); exact P end).
  - destruct H as (? & ? & ? & _ & E & ?). now rewrite E.
  - unfold remove_endpoint. rewrite P. destruct (is_parent s i).
    + destruct (parent s); [|exact P]. destruct (match ex with Some _ => _ | None => _ end); [exact P|].
      cbn [fst]. destruct (fl_act _); [exact P|]. unfold fatal_shutdown.
      rewrite (keeps (f := routes) (g := shutdown _)). exact P.
    + destruct (_ =? i); [exact P|]. exact P.
  - rewrite P in H. discriminate.
  - unfold purge. generalize (map (fun p : range * ep => e_ref (snd p)) (routes s)). intro l.
    assert (P' : routes (set_routes [] s) = []) by reflexivity. revert P'. generalize (set_routes [] s).
    induction l as [|x l IH]; intros s1 P1; cbn [fold_left]; [exact P1|]. apply IH. exact P1.
Qed.
Lemma st_parent_none s s' : Inv s -> steps false s s' -> parent s = None -> parent s' = None.
Proof. apply (steps_ind_inv (fun s => parent s = None)). intros s1 s2 _. apply noadd_parent. Qed.
Lemma st_routes_none s s' : Inv s -> steps false s s' -> routes s = [] -> routes s' = [].
Proof. apply (steps_ind_inv (fun s => routes s = [])). intros s1 s2 _. apply noadd_routes. Qed.

Lemma pings_cleared e s : Inv s -> pings (clear_ping e s) = filter (fun p => negb (snd p =? e)) (pings s).
Proof.
  intro H. rewrite pings_clear_ping. destruct (d_timer (es s e)) eqn:T; [reflexivity|]. symmetry. apply filter_true.
  intros p P. destruct (N.eqb_spec (snd p) e) as [E|]; [|reflexivity].
  assert (d_timer (es s e) = true) by (apply (I_timer s H); rewrite <- E; now apply in_map). congruence.
Qed.
Definition unping (s : node) (p : N * N) : node := clear_ping (snd p) (ep_reset None false (snd p) s).
Lemma pings_unping s p : Inv s -> 0 < snd p < nexte s ->
  pings (unping s p) = filter (fun q => negb (snd q =? snd p)) (pings s).
Proof.
  intros H R. unfold unping. rewrite pings_cleared by (now apply keep_ereset).
  rewrite pings_ep_reset. destruct (d_timer _) eqn:T; [|reflexivity]. rewrite filter_filter.
  apply filter_ext. intros q. now destruct (_ =? _).
Qed.
Lemma st_unpings a l : forall s, Inv s -> (forall p, In p l -> 0 < snd p < nexte s) ->
  (forall p, In p (pings s) -> In p l) ->
  steps a s (fold_left unping l s) /\ pings (fold_left unping l s) = [].
Proof.
  induction l as [|p l IH]; intros s H R Q; cbn [fold_left].
  - split; [apply steps_refl|]. destruct (pings s) as [|q r]; [reflexivity|]. now elim (Q q (or_introl eq_refl)).
  - assert (RP : 0 < snd p < nexte s) by (apply R; now left).
    assert (S : steps a s (unping s p)) by (unfold unping; go).
    destruct (IH (unping s p)) as [A B].
    + eapply steps_Inv; eauto.
    + intros q X. eapply carry_e; [eapply steps_grow; eauto|]. apply R. now right.
    + intros q X. rewrite (pings_unping s p H RP) in X. apply filter_In in X as [X Y].
      destruct (Q q X) as [<-|]; [|assumption]. now rewrite N.eqb_refl in Y.
    + split; [|exact B]. eapply steps_trans; eauto.
Qed.
Lemma ping_range s p : Inv s -> In p (pings s) -> 0 < snd p < nexte s.
Proof.
  intros H P. assert (T : d_timer (es s (snd p)) = true) by (apply (I_timer s H); now apply in_map).
  assert (D : (0 < snd p < nexte s) \/ ~ (0 < snd p < nexte s)) by lia. destruct D as [D|D]; [exact D|].
  apply (I_freshe s H) in D as [_ D]. congruence.
Qed.

(** Appending small steps to a history that ends in the middle of [reset]. *)
Record mid (s s1 : node) : Prop := { M_steps : steps false s s1; M_inv : Inv s1 }.
Lemma mid_step s s1 s2 : mid s s1 -> steps false s1 s2 -> mid s s2.
Proof.
  intros [A B] C. constructor; [eapply steps_trans; eauto|eapply steps_Inv; eauto].
Qed.
Lemma remove_parent s p : Inv s -> parent s = Some p -> parent (fst (remove_endpoint (e_id p) None s)) = None.
Proof.
  intros H P. unfold remove_endpoint, is_parent. rewrite P.
  destruct (N.eqb_spec (my_id s) 0) as [E|_]; [elim (I_parent s H); [rewrite P; discriminate|exact E]|].
  rewrite N.eqb_refl. cbn [fst]. destruct (fl_act _); [reflexivity|].
  unfold fatal_shutdown. now rewrite (keeps (f := parent) (g := shutdown _)).
Qed.
Lemma set_pings_nil s : pings s = [] -> set_pings [] s = s.
Proof. intro E. destruct s. cbn in *. now rewrite E. Qed.
(** Operations that start no timer. *)
Definition shrink (s s' : node) : Prop := sub (pings s') (pings s) /\ sub (connecting s') (connecting s).
Lemma shrink_trans s1 s2 s3 : shrink s1 s2 -> shrink s2 s3 -> shrink s1 s3.
Proof. intros [A B] [C D]. split; eapply sub_trans; eauto. Qed.
Lemma shrink_same s s' : pings s' = pings s -> connecting s' = connecting s -> shrink s s'.
Proof. intros E1 E2. unfold shrink. rewrite E1, E2. split; apply sub_refl. Qed.
Lemma shrink_nil s s' : shrink s s' -> (pings s = [] -> pings s' = []) /\ (connecting s = [] -> connecting s' = []).
Proof. intros [A B]. split; intro E; [rewrite E in A; inversion A|rewrite E in B; inversion B]; reflexivity. Qed.
Lemma shrink_ereset b g e s : shrink s (ep_reset b g e s).
Proof.
  split; [rewrite pings_ep_reset; destruct (d_timer _); [apply sub_filter|apply sub_refl]|].
  rewrite timer_ep_reset. apply sub_filter.
Qed.
Lemma shrink_creset c s : shrink s (conn_reset c s).
Proof.
  unfold conn_reset. cbv zeta.
  assert (K : shrink s (conn_close c s)).
  { split; [rewrite (keeps (f := pings) (g := conn_close c)); apply sub_refl|]. rewrite timer_conn_close. apply sub_filter. }
  eapply shrink_trans; [exact K|]. generalize (conn_close c s). clear K s. intro s.
  assert (F : forall s, shrink s (conn_fin c s)) by (intro; apply shrink_same; fr1).
  eapply shrink_trans; [|apply F]. destruct (k_bind (cs s c)) as [e|]; [|now apply shrink_same].
  destruct (opt_eqb _ _); [apply shrink_ereset|]. destruct (memb _ _); [|now apply shrink_same].
  set (s1 := on_e e _ _). assert (K : shrink s s1) by (now apply shrink_same).
  eapply shrink_trans; [exact K|]. destruct (d_data (es s1 e)); [apply shrink_ereset|now apply shrink_same].
Qed.
Lemma shrink_drop_ep e s : shrink s (ep_drop e s).
Proof. unfold ep_drop. destruct (ep_held s e); [now apply shrink_same|apply shrink_ereset]. Qed.
Lemma shrink_drop_conn c s : shrink s (conn_drop c s).
Proof. unfold conn_drop. destruct (conn_held s c); [now apply shrink_same|apply shrink_creset]. Qed.
Lemma shrink_unping s p : shrink s (unping s p).
Proof.
  unfold unping.
  eapply shrink_trans; [apply shrink_ereset|]. split.
  - rewrite pings_clear_ping. destruct (d_timer _); [apply sub_filter|apply sub_refl].
  - rewrite (keeps (f := connecting) (g := clear_ping _)). apply sub_refl.
Qed.
Lemma shrink_fold {A} (f : node -> A -> node) : (forall s x, shrink s (f s x)) -> forall l s, shrink s (fold_left f l s).
Proof.
  intros F l. induction l as [|x l IH]; intro s; cbn [fold_left]; [now apply shrink_same|].
  eapply shrink_trans; [apply F|apply IH].
Qed.
Lemma shrink_status c v s : shrink s (set_status c v s).
Proof.
  split; [rewrite (keeps (f := pings) (g := set_status c v)); apply sub_refl|].
  unfold set_status. destruct (cst_eqb _ _); [apply sub_refl|]. destruct v; try apply sub_refl.
  rewrite timer_rm_timer. apply sub_filter.
Qed.
Lemma shrink_new c s : shrink s (on_new_connection c s).
Proof.
  unfold on_new_connection. destruct (_ && _); [|now apply shrink_same].
  assert (K1 : shrink s (fst (alloc_seq (emit (TNew c) s)))) by (now apply shrink_same).
  destruct (alloc_seq _) as [s1 q]. cbn [fst] in *.
  assert (K2 : shrink s1 (fst (send_reg false c 0%Z q s1))).
  { apply shrink_same; apply keep_send_reg; trivial; exact _. }
  destruct (send_reg _ _ _ _ _) as [s2 r]. cbn [fst] in *. eapply shrink_trans; [exact K1|]. eapply shrink_trans; [exact K2|].
  destruct (r <? 0)%Z; [apply shrink_creset|now apply shrink_same].
Qed.
Lemma shrink_on_c c f s : shrink s (on_c c f s). Proof. now apply shrink_same. Qed.
Lemma shrink_orc s : shrink s (fst (take_orc s)).
Proof. apply shrink_same; fr1. Qed.
Lemma shrink_connected c z s : shrink s (connected_cb c z s).
Proof.
  unfold connected_cb. cbv zeta. eapply shrink_trans; [|apply shrink_drop_conn]. destruct (z <? 0)%Z.
  - eapply shrink_trans; [|apply shrink_creset]. now apply shrink_same.
  - eapply shrink_trans; [|apply shrink_new]. eapply shrink_trans; [|apply shrink_on_c].
    eapply shrink_trans; [|apply shrink_status]. now apply shrink_same.
Qed.
Lemma shrink_listened c z s : shrink s (listened c z s).
Proof.
  unfold listened. eapply shrink_trans; [|apply shrink_drop_conn]. unfold listen_cb. destruct (z <? 0)%Z.
  - eapply shrink_trans; [|apply shrink_status]. now apply shrink_same.
  - eapply shrink_trans; [|apply shrink_new]. eapply shrink_trans; [|apply shrink_on_c].
    eapply shrink_trans; [|apply shrink_status]. now apply shrink_same.
Qed.
Lemma shrink_connects l : forall s, shrink s (finish_connects l s).
Proof.
  induction l as [|c l IH]; intro s; cbn [finish_connects]; [now apply shrink_same|].
  pose proof (shrink_orc s) as K. destruct (take_orc s) as [s1 z]. cbn [fst] in K.
  eapply shrink_trans; [exact K|]. eapply shrink_trans; [apply shrink_connected|apply IH].
Qed.
Lemma shrink_listens l : forall s, shrink s (finish_listens l s).
Proof.
  induction l as [|c l IH]; intro s; cbn [finish_listens]; [now apply shrink_same|].
  pose proof (shrink_orc s) as K. destruct (take_orc s) as [s1 z]. cbn [fst] in K.
  eapply shrink_trans; [exact K|]. eapply shrink_trans; [apply shrink_listened|apply IH].
Qed.
Lemma filter_len {A} (f : A -> bool) l : (length (filter f l) <= length l)%nat.
Proof. induction l as [|x l IH]; cbn; [lia|]. destruct (f x); cbn; lia. Qed.
Lemma connecting_dropped n : forall s, Inv s -> (length (connecting s) <= n)%nat -> connecting (drop_connecting n s) = [].
Proof.
  induction n as [|n IH]; intros s H L; cbn [drop_connecting].
  - destruct (connecting s); [reflexivity|cbn in L; lia].
  - destruct (connecting s) as [|[t c] r] eqn:C; [exact C|]. cbv zeta.
    assert (S : steps true s (conn_reset c s)) by eauto with st.
    pose proof (steps_Inv _ _ _ S H) as H1.
    assert (C1 : (length (connecting (conn_reset c s)) <= n)%nat /\ ~ In c (map snd (connecting (conn_reset c s)))).
    { rewrite (timer_conn_reset c s (Inv_listed s H)), C. split.
      - cbn [filter snd]. unfold victims at 1. cbn [memb existsb]. rewrite N.eqb_refl. cbn [orb negb].
        pose proof (filter_len (fun p : N * N => negb (memb (snd p) (victims s c))) r) as X. cbn in L. lia.
      - intro X. apply in_map_iff in X as (p & E & P). apply filter_In in P as [_ P]. rewrite E in P.
        unfold victims in P. cbn [memb existsb] in P. now rewrite N.eqb_refl in P. }
    destruct C1 as [C1 NI]. set (s1 := conn_reset c s) in *. clearbody s1.
    destruct (connecting s1) as [|[t' c'] r'] eqn:C2.
    + apply IH; [assumption|]. rewrite C2. cbn. lia.
    + destruct (N.eqb_spec c' c) as [->|]; [elim NI; now left|]. apply IH; [assumption|]. now rewrite C2.
Qed.
(** A node that is being reset stays so until the reset is done. *)
Lemma doomed_log l s s' : log s' = l ++ log s -> Forall (fun t => t <> TReset) l -> doomed s -> doomed s'.
Proof.
  intros L F (a & b & E & N). exists (l ++ a), b. split; [now rewrite L, E, app_assoc|].
  intro X. apply in_app_or in X as [X|X]; [|auto]. rewrite Forall_forall in F. now apply (F _ X).
Qed.
Lemma doomed_same s s' : log s' = log s -> doomed s -> doomed s'.
Proof. intro E. now apply (doomed_log []). Qed.
Lemma doomed_calm s s' : calm s s' -> doomed s -> doomed s'.
Proof.
  intros [(l & L & F) _]. apply (doomed_log l); [exact L|]. eapply Forall_impl; [|exact F]. intros t Q ->. discriminate.
Qed.
Lemma calm_addconn e c b s : calm s (fst (add_connection e c b s)).
Proof.
  unfold add_connection. destruct (k_bind (cs s c)) as [e'|]; [destruct (_ =? _); apply calm_refl|]. cbn [fst].
  set (s1 := on_c c _ _). assert (S1 : calm s s1) by (subst s1; destruct (_ || _); now apply calm_same). clearbody s1.
  destruct (k_st _); try exact S1. eapply calm_trans; [exact S1|apply calm_set_status].
Qed.
Lemma doomed_emit t s : t <> TReset -> doomed s -> doomed (emit t s).
Proof. intro N. apply (doomed_log [t]); [reflexivity|now repeat constructor]. Qed.
Lemma micro_doomed a s s' : micro a s s' -> doomed s -> doomed s'.
Proof.
  intro M. destruct M as [s s' C|v s V|s N|z s|t s T|s|c f s|l s|c m s|c z n s|c s|g e s|e c b s|e f s|i subs p h s|x s _ N A I0
    |i ex s|p s P|i ex t e s R C|s|l s|l s|l s|c s|c s|e s|x s|v s|e s|e s];
    try (now apply doomed_same); try (apply doomed_same; now (reflexivity || fr1)).
  - destruct C as (E1 & E2 & E3 & E4 & E5 & E6 & E7 & E8 & E9 & E10 & E11 & E12 & E13 & E14 & E15 & E16 & E17 & E18).
    now apply doomed_same.
  - unfold on_actived. cbn [fl_act set_nst]. destruct (fl_act s); [now apply doomed_same|].
    intro D. apply doomed_emit; [discriminate|]. revert D. now apply doomed_same.
  - apply doomed_calm, calm_shutdown.
  - apply doomed_emit. intros ->. contradiction.
  - destruct (push_log c m s) as [L|[r L]]; [now apply doomed_same|].
    apply (doomed_log [TSend c m (x_size (cf s) m) r]); trivial. constructor; [discriminate|constructor].
  - unfold written. destruct (linked s c); [|trivial]. cbv zeta.
    apply (doomed_log [TWrote c z n]); [destruct (_ =? _)%Z; reflexivity|constructor; [discriminate|constructor]].
  - apply doomed_calm, calm_conn_reset.
  - apply doomed_calm, calm_ep_reset.
  - apply doomed_calm, calm_addconn.
  - unfold add_endpoint. destruct (fl_reset s); [trivial|]. destruct (_ && _).
    + destruct (parent s); [trivial|]. cbv zeta. cbn [fst]. intro U.
      assert (U1 : doomed (add_ping x (set_parent (Some x) s))) by (revert U; apply doomed_same; fr1).
      apply doomed_emit; [discriminate|]. destruct (_ && _); [|exact U1].
      unfold on_actived. destruct (fl_act (set_nst NRunning _)); [revert U1; now apply doomed_same|].
      apply doomed_emit; [discriminate|]. revert U1. now apply doomed_same.
    + destruct (_ && _); [trivial|]. destruct (insert_child _ _) as [[] t]; [|trivial]. cbn [fst]. intro U.
      assert (U1 : doomed (emit (TAdded (e_ref x)) (set_routes t s))) by (apply doomed_emit; [discriminate|]; revert U; now apply doomed_same).
      revert U1. apply doomed_same; fr1.
  - intro U. unfold remove_endpoint. destruct (is_parent s i).
    + destruct (parent s) as [p|]; [|exact U]. destruct (match ex with Some _ => _ | None => _ end); [exact U|]. cbv zeta. cbn [fst].
      set (s1 := emit _ _). assert (U1 : doomed s1) by (apply doomed_emit; [discriminate|]; revert U; now apply doomed_same).
      clearbody s1. destruct (fl_act s1); [exact U1|]. revert U1. apply doomed_calm, calm_shutdown.
    + destruct (_ =? _); [exact U|]. destruct (remove_child _ _ _) as [[] t]; [|exact U].
      destruct (child_at _ _); [|exact U]. cbn [fst]. apply doomed_emit; [discriminate|]. revert U. now apply doomed_same.
  - intro U. apply doomed_emit; [discriminate|]. revert U. now apply doomed_same.
  - intro U. apply doomed_emit; [discriminate|]. revert U. now apply doomed_same.
  - unfold purge. intro U. assert (U1 : doomed (set_routes [] s)) by (revert U; now apply doomed_same). revert U1.
    generalize (set_routes [] s). induction (map _ (routes s)) as [|e l IH]; intros s0 U0; [exact U0|].
    cbn [fold_left]. apply IH. now apply doomed_emit.
  - apply (doomed_log [TFault e (e_id (d_ep (es s e))) (x_tol (cf s))]); [reflexivity|constructor; [discriminate|constructor]].
  - apply (doomed_log [TGood e]); [reflexivity|constructor; [discriminate|constructor]].
Qed.
Lemma steps_doomed a s s' : steps a s s' -> doomed s -> doomed s'.
Proof. induction 1 as [|s1 s2 s3 M _ IH]; [trivial|]. intro D. apply IH. now apply (micro_doomed a s1). Qed.
Theorem reset_split s : Inv s -> fl_reset s = false ->
  exists m, mid s m /\ parent m = None /\ routes m = [] /\ pings m = [] /\ connecting m = [] /\
            pend m = [] /\ lpend m = [] /\ reset s = finish m.
Proof.
  intros H F. unfold reset. rewrite F. cbv zeta.
  set (s1 := emit TBegin (set_fl_reset true s)).
  assert (S0 : forall a, steps a s s1).
  { intro a. refine (steps_trans _ _ _ _ (st_fl_reset a true s) _). apply st_emit; exact Logic.I. }
  assert (M : mid s s1) by (constructor; [apply S0|]; eapply steps_Inv; [apply (S0 false)|exact H]).
  assert (DM : doomed s1) by (exists [], (log s); split; [reflexivity|intros []]).
  clearbody s1. clear H F S0.
  set (n := S _). clearbody n.
  pose proof (steps_doomed _ _ _ (st_drain false n s1 (M_inv _ _ M)) DM) as DM1. clear DM.
  pose proof (mid_step _ _ _ M (st_drain false n s1 (M_inv _ _ M))) as M1. clear M.
  set (s2 := drain n s1) in *. clearbody s2. clear n s1.
  assert (S : steps false s2 (fold_left (fun s p => conn_reset (snd p) s) (procs s2) s2)).
  { apply (st_fold false (fun _ _ => True)); trivial; [intros; apply st_creset|apply (M_inv _ _ M1)]. }
  pose proof (mid_step _ _ _ M1 S) as M2. pose proof (steps_doomed _ _ _ S DM1) as DM2. clear S M1 DM1.
  set (s3 := fold_left (fun s p => conn_reset (snd p) s) _ s2) in *. clearbody s3. clear s2.
  pose proof (mid_step _ _ _ M2 (st_procs false [] s3)) as M3. clear M2. change (doomed (set_procs [] s3)) in DM2.
  set (s4 := set_procs [] s3) in *. clearbody s4. clear s3.
  set (s5 := match parent s4 with Some p => _ | None => _ end).
  assert (X : mid s s5 /\ parent s5 = None /\ doomed s5).
  { subst s5. destruct (parent s4) as [p|] eqn:P; [|auto].
    pose proof (st_rmep false (e_id p) None s4 (or_introl DM2)) as S4.
    pose proof (mid_step _ _ _ M3 S4) as M4.
    assert (P1 : parent (fst (remove_endpoint (e_id p) None s4)) = None) by (apply remove_parent; [apply (M_inv _ _ M3)|exact P]).
    assert (A : alive s4 p) by (apply (I_tab s4 (M_inv _ _ M3)); right; now left).
    assert (R : 0 < e_ref p < nexte (fst (remove_endpoint (e_id p) None s4))).
    { rewrite (keeps2 (f := nexte) (h := remove_endpoint _ _)). apply A. }
    split; [eapply mid_step; [exact M4|now apply st_drop_ep]|].
    split; [now rewrite (keeps (f := parent) (g := ep_drop _))|].
    apply (steps_doomed _ _ _ (st_drop_ep false _ _ R)). now apply (steps_doomed _ _ _ S4). }
  destruct X as (M4 & P5 & DM5). clearbody s5. clear M3 DM2 s4.
  change (fold_left (fun s e => emit (TRemoved e) s) (map (fun p : range * ep => e_ref (snd p)) (routes s5)) (set_routes [] s5))
    with (purge s5).
  assert (OLD : forall e, In e (map (fun p : range * ep => e_ref (snd p)) (routes s5)) -> 0 < e < nexte s5).
  { intros e E. apply in_map_iff in E as (q & <- & Q). apply (I_tab s5 (M_inv _ _ M4)). do 2 right. left. now apply in_map. }
  set (old := map (fun p : range * ep => e_ref (snd p)) (routes s5)) in *. clearbody old.
  assert (S : steps false s5 (purge s5)) by (apply steps_one, M_purge; exact DM5).
  assert (G : grow s5 (purge s5)) by (eapply steps_grow; [apply (M_inv _ _ M4)|exact S]).
  assert (P6 : parent (purge s5) = None) by (eapply st_parent_none; [apply (M_inv _ _ M4)|exact S|exact P5]).
  destruct (purge_fields s5) as (R6 & _).
  pose proof (mid_step _ _ _ M4 S) as M6.
  assert (OLD6 : forall e, In e old -> 0 < e < nexte (purge s5)) by (intros e E; now apply (carry_e s5), OLD).
  set (s6 := purge s5) in *. clearbody s6. clear - M6 P6 R6 OLD6.
  pose proof (st_drops false old s6 (M_inv _ _ M6) OLD6) as S.
  pose proof (st_parent_none _ _ (M_inv _ _ M6) S P6) as P7. pose proof (st_routes_none _ _ (M_inv _ _ M6) S R6) as R7.
  pose proof (mid_step _ _ _ M6 S) as M7.
  set (s7 := fold_left drop_ep old s6) in *. clearbody s7. clear - M7 P7 R7.
  pose proof (connecting_dropped (length (connecting s7)) s7 (M_inv _ _ M7) (le_n _)) as C8.
  set (n := length _) in *. clearbody n.
  pose proof (st_drop_connecting false n s7 (M_inv _ _ M7)) as S.
  pose proof (st_parent_none _ _ (M_inv _ _ M7) S P7) as P8. pose proof (st_routes_none _ _ (M_inv _ _ M7) S R7) as R8.
  pose proof (mid_step _ _ _ M7 S) as M8.
  set (s8 := drop_connecting n s7) in *. clearbody s8. clear - M8 P8 R8 C8.
  assert (S : steps false s8 (match self s8 with Some e => ep_reset None false (e_ref e) s8 | None => s8 end)).
  { destruct (self s8) as [e|] eqn:E; [|apply steps_refl]. apply st_ereset. apply (I_tab s8 (M_inv _ _ M8)). now left. }
  pose proof (st_parent_none _ _ (M_inv _ _ M8) S P8) as P9. pose proof (st_routes_none _ _ (M_inv _ _ M8) S R8) as R9.
  assert (C9 : connecting (match self s8 with Some e => ep_reset None false (e_ref e) s8 | None => s8 end) = []).
  { destruct (self s8) as [e|]; [|exact C8]. eapply shrink_nil; [apply shrink_ereset|exact C8]. }
  pose proof (mid_step _ _ _ M8 S) as M9.
  set (s9 := match self s8 with Some e => _ | None => _ end) in *. clearbody s9. clear - M9 P9 R9 C9.
  pose proof (mid_step _ _ _ M9 (st_fl_gcreset false true s9)) as M10.
  change (parent (set_fl_gcreset true s9) = None) in P9. change (routes (set_fl_gcreset true s9) = []) in R9.
  change (connecting (set_fl_gcreset true s9) = []) in C9.
  set (s10 := set_fl_gcreset true s9) in *. clearbody s10. clear - M10 P9 R9 C9.
  assert (OLD : forall e, In e (map e_ref (gce s10)) -> 0 < e < nexte s10).
  { intros e E. apply in_map_iff in E as (q & <- & Q). apply (I_tab s10 (M_inv _ _ M10)). do 3 right. exact Q. }
  set (old := map e_ref (gce s10)) in *. clearbody old.
  change (forall e, In e old -> 0 < e < nexte (set_gce [] s10)) in OLD.
  change (parent (set_gce [] s10) = None) in P9. change (routes (set_gce [] s10) = []) in R9.
  change (connecting (set_gce [] s10) = []) in C9.
  pose proof (mid_step _ _ _ M10 (st_gce_nil false s10)) as M11. clear M10.
  set (s11 := set_gce [] s10) in *. clearbody s11.
  pose proof (st_drops false old s11 (M_inv _ _ M11) OLD) as S.
  pose proof (st_parent_none _ _ (M_inv _ _ M11) S P9) as P12. pose proof (st_routes_none _ _ (M_inv _ _ M11) S R9) as R12.
  assert (C12 : connecting (fold_left drop_ep old s11) = []).
  { eapply shrink_nil; [|exact C9]. apply shrink_fold. intros. apply shrink_drop_ep. }
  pose proof (mid_step _ _ _ M11 S) as M12.
  set (s12 := fold_left drop_ep old s11) in *. clearbody s12. clear - M12 P12 R12 C12.
  pose proof (mid_step _ _ _ M12 (st_gcc false [] s12)) as M13.
  change (parent (set_gcc [] s12) = None) in P12. change (routes (set_gcc [] s12) = []) in R12.
  change (connecting (set_gcc [] s12) = []) in C12.
  set (s13 := set_gcc [] s12) in *. clearbody s13. clear - M13 P12 R12 C12.
  change (fold_left (fun s p => clear_ping (snd p) (ep_reset None false (snd p) s)) (pings s13) s13)
    with (fold_left unping (pings s13) s13).
  destruct (st_unpings false (pings s13) s13 (M_inv _ _ M13)) as [S PI]; [|auto|].
  { intros p P. eapply ping_range; [apply (M_inv _ _ M13)|exact P]. }
  pose proof (st_parent_none _ _ (M_inv _ _ M13) S P12) as P14. pose proof (st_routes_none _ _ (M_inv _ _ M13) S R12) as R14.
  assert (C14 : connecting (fold_left unping (pings s13) s13) = []).
  { eapply shrink_nil; [|exact C12]. apply shrink_fold. intros. apply shrink_unping. }
  pose proof (mid_step _ _ _ M13 S) as M14.
  set (s14 := fold_left unping _ s13) in *. clearbody s14. clear - M14 P14 R14 PI C14.
  rewrite (set_pings_nil s14 PI).
  destruct (st_finish_connects false (pend s14) s14 (M_inv _ _ M14) eq_refl) as (S & PE & LP).
  pose proof (st_parent_none _ _ (M_inv _ _ M14) S P14) as P15. pose proof (st_routes_none _ _ (M_inv _ _ M14) S R14) as R15.
  pose proof (mid_step _ _ _ M14 S) as M15.
  destruct (shrink_nil _ _ (shrink_connects (pend s14) s14)) as [X15 C15]. specialize (X15 PI). specialize (C15 C14).
  set (s15 := finish_connects (pend s14) s14) in *. clearbody s15. clear - M15 P15 R15 X15 C15 PE.
  destruct (st_finish_listens false (lpend s15) s15 (M_inv _ _ M15) eq_refl) as (S & LP & PE').
  pose proof (st_parent_none _ _ (M_inv _ _ M15) S P15) as P16. pose proof (st_routes_none _ _ (M_inv _ _ M15) S R15) as R16.
  pose proof (mid_step _ _ _ M15 S) as M16.
  destruct (shrink_nil _ _ (shrink_listens (lpend s15) s15)) as [X16 C16]. specialize (X16 X15). specialize (C16 C15).
  rewrite PE in PE'.
  exists (finish_listens (lpend s15) s15). split; [exact M16|]. repeat (split; [assumption|]). reflexivity.
Qed.

(** ** Histories *)
(** [back]: the clock may be set back. *)
Section Histories.
Context (back : bool).
Inductive estep : node -> node -> Prop :=
| E_clock v s : back = true -> estep s (set_sec v s)
| E_micro a s s' : micro a s s' -> estep s s'
| E_finish s : parent s = None -> routes s = [] -> pings s = [] -> connecting s = [] -> pend s = [] -> lpend s = [] ->
    estep s (finish s)
| E_cf x s : nst s = NCreated -> estep s (set_cf x s)
| E_self e s : nst s = NCreated -> alive s e -> estep s (set_self (Some e) s).
Inductive esteps : node -> node -> Prop :=
| esteps_refl s : esteps s s
| esteps_cons s1 s2 s3 : estep s1 s2 -> esteps s2 s3 -> esteps s1 s3.
Lemma esteps_one s s' : estep s s' -> esteps s s'. Proof. intro E. econstructor; [exact E|constructor]. Qed.
Lemma esteps_trans s1 s2 s3 : esteps s1 s2 -> esteps s2 s3 -> esteps s1 s3.
Proof. induction 1; intro; [assumption|]. econstructor; eauto. Qed.
Lemma steps_esteps a s s' : steps a s s' -> esteps s s'.
Proof. induction 1; [constructor|]. econstructor; [eapply E_micro; eauto|assumption]. Qed.
Lemma estep_Inv s s' : estep s s' -> Inv s -> Inv s'.
Proof.
  intros E H. destruct E as [v s _|a s s' M|s P R PI C PE LP|x s N|e s N A].
  - destruct H. now constructor.
  - eapply micro_Inv; eauto.
  - assert (ID : my_id (finish s) = my_id s) by reflexivity.
    destruct H. constructor; trivial.
    + intros _. now split.
    + intros e [[X|X]|[X|X]]; try discriminate; apply I_log; auto.
  - destruct H. constructor; trivial.
  - pose proof (I_created s H N) as [P R]. destruct H. constructor; trivial.
    + intros x [X|X]; [injection X as ->; exact A|apply I_tab; now right].
    + cbn. rewrite P. congruence.
Qed.
Lemma esteps_Inv s s' : esteps s s' -> Inv s -> Inv s'.
Proof. induction 1; intro; [assumption|]. eauto using estep_Inv. Qed.
Lemma esteps_ind_inv (P : node -> Prop) :
  (forall s s', Inv s -> estep s s' -> P s -> P s') -> forall s s', Inv s -> esteps s s' -> P s -> P s'.
Proof.
  intros C s s' H S. induction S as [|s1 s2 s3 M S IH]; intro X; [exact X|].
  apply IH; [eapply estep_Inv; eauto|]. eapply C; eauto.
Qed.

(** The flags of calls in progress are clear between calls. *)
Definition idle (s : node) : Prop := flags s = (false, false, false, false, false).
Lemma idle_kc s s' : kc s s' -> idle s -> idle s'.
Proof. intros [_ _ _ E] I. unfold idle. now rewrite E. Qed.
Lemma idle_flags s : idle s -> fl_reset s = false /\ fl_gcreset s = false /\ fl_self s = false /\ fl_gce s = false /\ fl_gcc s = false.
Proof. unfold idle, flags. intro E. injection E as -> -> -> -> ->. auto. Qed.

Definition good (s : node) : Prop := Inv s /\ idle s.
(** What one call does: a history of small steps, ending in a good state. *)
Definition does (s s' : node) : Prop := esteps s s' /\ good s'.
Lemma does_steps a s s' : good s -> steps a s s' -> kc s s' -> does s s'.
Proof.
  intros [H D] S K. split; [|split]; [eapply steps_esteps; eauto|eapply steps_Inv; eauto|eapply idle_kc; eauto].
Qed.
Lemma does_trans s1 s2 s3 : does s1 s2 -> does s2 s3 -> does s1 s3.
Proof. intros [A _] [B C]. split; [eapply esteps_trans; eauto|exact C]. Qed.
Lemma does_refl s : good s -> does s s. Proof. intro. split; [constructor|assumption]. Qed.
Lemma does_reset s : good s -> does s (reset s).
Proof.
  intros [H D]. destruct (idle_flags s D) as (F & _).
  destruct (reset_split s H F) as (m & [S M] & P & R & PI & C & PE & LP & E). rewrite E.
  assert (X : estep m (finish m)) by (now constructor).
  split; [|split].
  - eapply esteps_trans; [eapply steps_esteps; exact S|]. now apply esteps_one.
  - eapply estep_Inv; eauto.
  - reflexivity.
Qed.
Lemma nst_reset s : fl_reset s = false -> Inv s -> nst (reset s) = NCreated.
Proof. intros F H. destruct (reset_split s H F) as (m & _ & _ & _ & _ & _ & _ & _ & ->). reflexivity. Qed.

Lemma nst_insert_ping x s : nst (insert_ping x s) = nst s. Proof. fr1. Qed.
Lemma does_init i x s : good s -> does s (fst (init i x s)).
Proof.
  intro G. unfold init.
  set (s1 := match nst s with NCreated => s | _ => reset s end).
  assert (D1 : does s s1 /\ nst s1 = NCreated).
  { subst s1. destruct (nst s) eqn:N; [split; [now apply does_refl|exact N]|..];
      (split; [now apply does_reset|apply nst_reset; [apply (idle_flags s (proj2 G))|apply G]]). }
  clearbody s1. destruct D1 as [D1 N1].
  assert (D2 : does s1 (set_cf x s1)).
  { split; [apply esteps_one; now constructor|]. split; [|apply D1]. apply (estep_Inv s1); [now constructor|apply D1]. }
  cbv zeta. assert (N2 : nst (set_cf x s1) = NCreated) by exact N1.
  pose proof (does_trans _ _ _ D1 D2) as D3. clear D1 D2 N1.
  set (s2 := set_cf x s1) in *. clearbody s2. clear s1.
  destruct (endpoint_subnets i (x_nets x)) as [subs|].
  2: { cbn [fst]. eapply does_trans; [exact D3|]. eapply (does_steps true); [apply D3|apply st_emit; exact I|apply kc_emit]. }
  pose proof (st_epcreate false i subs (x_pid x) (x_host x) s2) as S.
  pose proof (kc_ep_create i subs (x_pid x) (x_host x) s2) as K.
  destruct (ep_create_spec i subs (x_pid x) (x_host x) s2 (proj1 (proj2 D3))) as [A _].
  assert (N3 : nst (fst (ep_create i subs (x_pid x) (x_host x) s2)) = NCreated).
  { unfold ep_create. cbn [fst]. rewrite nst_insert_ping. exact N2. }
  assert (S3 : self (fst (ep_create i subs (x_pid x) (x_host x) s2)) = self s2) by (now destruct K).
  destruct (ep_create _ _ _ _ s2) as [s3 e]. cbn [fst snd] in *. cbv zeta.
  pose proof (does_trans _ _ _ D3 (does_steps _ _ _ (proj2 D3) S K)) as D4. clear S K D3 N2.
  assert (OLD : forall o, self s2 = Some o -> 0 < e_ref o < nexte (set_self (Some e) s3)).
  { intros o O. rewrite <- S3 in O. apply (I_tab s3 (proj1 (proj2 D4))). now left. }
  clear S3. generalize dependent (self s2). intros old OLD.
  assert (D5 : does s3 (set_self (Some e) s3)).
  { split; [apply esteps_one; now constructor|]. split; [|apply D4]. apply (estep_Inv s3); [now constructor|apply D4]. }
  pose proof (does_trans _ _ _ D4 D5) as D6. clear D4 D5 A N3.
  set (s4 := set_self (Some e) s3) in *. clearbody s4. clear s2 s3.
  eapply does_trans; [exact D6|]. destruct D6 as [_ D6].
  eapply (does_steps true); [exact D6| |].
  - destruct D6 as [H _]. assert (S : steps true s4 (match old with Some o => ep_drop (e_ref o) s4 | None => s4 end)).
    { destruct old as [o|]; [|apply steps_refl]. apply st_drop_ep. now apply OLD. }
    mvn S s5. go.
  - destruct old; kgo.
Qed.
Lemma does_stop s : good s -> does s (stop_if_shut s).
Proof. intro G. unfold stop_if_shut. destruct (fl_shut s); [now apply does_reset|now apply does_refl]. Qed.
Lemma does_dispatch_self s : good s -> does s (fst (dispatch_self s)).
Proof. intro G. eapply (does_steps true); [exact G|apply st_dispatch_self, G|apply kc_dispatch_self]. Qed.
Lemma does_collect s : good s -> does s (collect s).
Proof.
  intro G. destruct (idle_flags s (proj2 G)) as (_ & _ & _ & F1 & F2).
  eapply (does_steps true); [exact G|apply st_collect, G|now apply kc_collect].
Qed.
Lemma good_of s s' : does s s' -> good s'. Proof. now intros []. Qed.
Lemma does_round s : good s -> does s (stop_if_shut (collect (fst (dispatch_self s)))).
Proof.
  intro G. pose proof (does_dispatch_self s G) as D1. pose proof (does_collect _ (good_of _ _ D1)) as D2.
  eapply does_trans; [exact D1|]. eapply does_trans; [exact D2|]. apply does_stop, D2.
Qed.
Lemma does_sec v s : good s -> sec s <= v -> does s (set_sec v s).
Proof.
  intros [H D] L. split; [|split]; [eapply steps_esteps, (st_sec true v s L)|eapply steps_Inv; [apply (st_sec true v s L)|exact H]|exact D].
Qed.
Lemma does_proc n now feed s s' : good s -> proc n now feed s = Some s' -> does s s'.
Proof.
  intros G. unfold proc. set (s1 := if sec s <? now then set_sec now s else s).
  assert (D : does s s1 /\ now <= sec s1).
  { subst s1. destruct (N.ltb_spec (sec s) now) as [L|L]; [|split; [now apply does_refl|exact L]].
    split; [apply does_sec; [exact G|lia]|cbn; lia]. }
  destruct D as [D W]. clearbody s1. cbv zeta.
  assert (C : nst s1 = NCreated \/ nst s1 <> NCreated) by (destruct (nst s1); auto; right; discriminate).
  destruct C as [C|C]; [rewrite C; now intros [= <-]|].
  intro X. assert (X' : (if fl_shut s1 then Some (reset (fst (dispatch_self s1)))
      else
        match ping_loop n now None (parent_op now (sweep (length (connecting (fold_left proc_one feed s1))) now (fold_left proc_one feed s1))) with
        | None => None
        | Some s => Some (stop_if_shut (collect (fst (dispatch_self s))))
        end) = Some s') by (destruct (nst s1); [now elim C|exact X..]).
  clear X. eapply does_trans; [exact D|]. apply good_of in D. destruct (fl_shut s1).
  - injection X' as <-. pose proof (does_dispatch_self s1 D) as D1. eapply does_trans; [exact D1|apply does_reset, D1].
  - assert (D1 : does s1 (fold_left proc_one feed s1)).
    { eapply does_steps; [exact D|apply st_procs_all; [apply D|exact C]|]. apply kc_fold, kc_proc_one. }
    assert (W1 : now <= sec (fold_left proc_one feed s1)).
    { destruct (kc_fold proc_one kc_proc_one feed s1) as [_ _ E _]. now rewrite E. }
    set (s2 := fold_left proc_one feed s1) in *. clearbody s2. eapply does_trans; [exact D1|]. apply good_of in D1.
    set (k := length _) in X'. clearbody k.
    assert (D2 : does s2 (sweep k now s2)) by (eapply (does_steps true); [exact D1|apply st_sweep, D1|apply kc_sweep]).
    assert (W2 : now <= sec (sweep k now s2)) by (destruct (kc_sweep k now s2) as [_ _ E _]; now rewrite E).
    set (s3 := sweep k now s2) in *. clearbody s3. eapply does_trans; [exact D2|]. apply good_of in D2.
    assert (D3 : does s3 (parent_op now s3)) by (eapply (does_steps true); [exact D2|apply st_parent_op, D2|apply kc_parent_op]).
    assert (W3 : now <= sec (parent_op now s3)) by (destruct (kc_parent_op now s3) as [_ _ E _]; now rewrite E).
    set (s4 := parent_op now s3) in *. clearbody s4. eapply does_trans; [exact D3|]. apply good_of in D3.
    destruct (ping_loop n now None s4) as [s5|] eqn:PL; [|discriminate]. injection X' as <-.
    assert (D4 : does s4 s5).
    { eapply (does_steps true); [exact D3| |eapply kc_ping_loop; exact PL].
      apply (st_ping_loop true now n None s4 s5); [apply D3|exact W3|intros ? X; discriminate X|exact PL]. }
    eapply does_trans; [exact D4|]. apply does_round, D4.
Qed.
Lemma st_io_step i s : Inv s -> steps true s (io_step i s).
Proof.
  intro H. assert (C : nst s = NCreated \/ nst s <> NCreated) by (destruct (nst s); auto; right; discriminate).
  unfold io_step. destruct C as [C|C]; [rewrite C; apply steps_refl|].
  assert (X : steps true s (match i with
  | IConnected c z => if memb c (pend s) then connected_cb c z s else s
  | IListened c z => if memb c (lpend s) then listened c z s else s
  | IAccepted a => accepted a s
  | IClosed c => peer_closed c s
  | IWritten c z n => written c z n s
  | IRecv c i => match k_kind (cs s c) with KSock => recv_item c i s | _ => s end
  | IAcceptFailed => accept_failed s
  end)).
  { destruct i as [c z|c z|x|c|c z n|c i|].
    - destruct (memb c (pend s)) eqn:M; [|apply steps_refl]. apply memb_in in M. now apply st_connected.
    - destruct (memb c (lpend s)) eqn:M; [|apply steps_refl]. apply memb_in in M. now apply st_listened.
    - now apply st_accepted.
    - apply st_closed.
    - apply st_written.
    - destruct (k_kind (cs s c)) eqn:K; try apply steps_refl. apply st_recv_item; auto.
      apply kind_fresh; [assumption|rewrite K; discriminate].
    - apply st_accept_failed. }
  destruct (nst s); [apply steps_refl|exact X..].
Qed.
Lemma st_io_steps l s : Inv s -> steps true s (fold_left (fun s i => io_step i s) l s).
Proof. intro H. apply (st_fold true (fun _ _ => True)); trivial. intros. now apply st_io_step. Qed.
Lemma does_poll l s : good s -> does s (poll l s).
Proof.
  intro G. unfold poll. destruct (fl_shut s).
  - pose proof (does_dispatch_self s G) as D1. eapply does_trans; [exact D1|apply does_reset, D1].
  - assert (D1 : does s (fold_left (fun s i => io_step i s) l s)).
    { eapply does_steps; [exact G|apply st_io_steps, G|]. apply (kc_fold (fun s i => io_step i s)). intros. apply kc_io_step. }
    eapply does_trans; [exact D1|]. apply does_round, D1.
Qed.
(** The time given to [start] does not lie before the present. *)
Definition punctual (ev : event) (s : node) : Prop :=
  match ev with EStart now => back = true \/ sec s <= now | _ => True end.
Theorem does_step n ev s s' : good s -> punctual ev s -> step n ev s = Some s' -> does s s'.
Proof.
  intros G PU. unfold step, step_ret. destruct ev as [i x|now|a|a|a i|i|to ty b w q|to l q|z| |now feed|l|i|o l]; cbn [option_map fst];
    try (intros [= <-]).
  - now apply does_init.
  - assert (C : nst s = NCreated \/ nst s <> NCreated) by (destruct (nst s); auto; right; discriminate).
    destruct C as [C|C]; [unfold start; rewrite C; now apply does_refl|].
    assert (D0 : does s (set_sec now s)).
    { destruct PU as [PU|PU]; [|now apply does_sec]. destruct G as [H D].
      split; [apply esteps_one; now constructor|]. split; [destruct H; now constructor|exact D]. }
    eapply does_trans; [exact D0|].
    assert (E : steps true (set_sec now s) (fst (start now s))) by (apply st_start; [apply G|exact C]).
    destruct D0 as [_ [H D]]. split; [|split]; [eapply steps_esteps; eauto|eapply steps_Inv; eauto|].
    assert (K : flags (fst (start now s)) = flags (set_sec now s)).
    { unfold start. destruct (nst s); [reflexivity|apply C_flags..]; kgo. }
    unfold idle. rewrite K. exact D.
  - eapply does_steps; [exact G|apply st_listen, G|apply kc_listen].
  - eapply (does_steps true); [exact G|apply st_connect, G|apply kc_connect].
  - destruct (get_endpoint s i) as [e|] eqn:E; [|now apply does_refl].
    eapply does_steps; [exact G|apply st_connect_ep; [apply G|]|apply kc_connect_ep].
    apply (I_tab s (proj1 G)). now apply (get_endpoint_tabled s i).
  - eapply (does_steps true); [exact G|apply st_node_disconnect, G|apply kc_node_disconnect].
  - eapply (does_steps true); [exact G|apply st_send_data, G|apply kc_send_data].
  - eapply (does_steps true); [exact G|apply st_send_custom, G|apply kc_send_custom].
  - eapply (does_steps true); [exact G|apply st_shut|apply kc_shutdown].
  - now apply does_reset.
  - destruct (proc n now feed s) as [s1|] eqn:P; [|discriminate]. intros [= <-]. eapply does_proc; eauto.
  - now apply does_poll.
  - eapply does_steps; [exact G|apply st_io_step, G|apply kc_io_step].
  - eapply (does_steps true); [exact G| |now apply kc_intro].
    eapply steps_trans; [apply (st_orc true o)|apply st_salts].
Qed.
End Histories.
Theorem good_step n ev s s' : good s -> step n ev s = Some s' -> good s'.
Proof. intros G S. apply (does_step true n ev s s' G) in S; [apply S|]. destruct ev; cbn; auto. Qed.
Theorem does_run n evs : forall s s', good s -> run n evs s = Some s' -> does true s s'.
Proof.
  induction evs as [|ev r IH]; intros s s' G; cbn [run]; [intros [= <-]; now apply does_refl|].
  destruct (step n ev s) as [s1|] eqn:S; [|discriminate]. intro R. assert (PU : punctual true ev s) by (destruct ev; cbn; auto).
  pose proof (does_step true n ev s s1 G PU S) as D.
  eapply does_trans; [exact D|]. eapply IH; [apply D|exact R].
Qed.
Lemma good_new : good new_node.
Proof. split; [apply new_node_Inv|reflexivity]. Qed.
Theorem reachable_does s : reachable s -> does true new_node s.
Proof. intros (n & evs & R). eapply does_run; [apply good_new|exact R]. Qed.
Theorem reachable_good s : reachable s -> good s.
Proof. intro R. now apply reachable_does in R as [_ G]. Qed.
Theorem reachable_Inv s : reachable s -> Inv s.
Proof. intro R. now apply reachable_good in R as [H _]. Qed.
