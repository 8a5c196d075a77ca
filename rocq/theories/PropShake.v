(** Two nodes that fit together come to know each other: C71. *)
From Coq Require Import Permutation.
From Verif Require Import Base Subnet SubnetSpec SubnetProof Route RouteProof Address NodeTypes NodeConn NodeCore NodeMsg Node
  NodeFrame NodeCtx NodeReset NodeInv NodeKeep NodeSteps NodeReach NodeSpec NodeLog NodeNotice NodeRoute NodeTrace NodeHandle NodeAuth
  PropNodeMsg PropNodeAuth PropNet PropCmd PropUb NodeReg NodeExample NodeStay PropStay PropReg NodeTime ShakeSpec NodeIntro.
Local Open Scope N_scope.
Ltac Zify.zify_post_hook ::= idtac.

(** ** What a node says of itself *)
(** C71: whatever a node does, each registration and each answer to one that it sends
    carries its own id, process, host and blocks, and one key for every token. *)
Theorem C71_introduction n evs s k ev s' l c m q z rsp r : run n evs new_node = Some s -> step k ev s = Some s' -> log s' = l ++ log s ->
  In (TSend c m q z) l -> m_body m = BReg rsp r -> exists me, self s = Some me /\ introduces (cf s) me m r.
Proof.
  intros _ S L I B. destruct (intro_step k ev s s' S) as (l' & E & F). rewrite L in E. apply app_inv_tail in E. subst l'.
  rewrite Forall_forall in F. specialize (F _ I). cbn [Q] in F. rewrite B in F. exact F.
Qed.
Print Assumptions C71_introduction.

(** A peer with the same tokens accepts the keys. *)
Lemma shared_keys x y me m r : introduces x me m r -> share_tokens x y -> key_fine y (r_keys r).
Proof.
  intros I [T M]. pose proof (in_keys _ _ _ _ I) as K. unfold key_fine. rewrite <- T. destruct (x_tokens x) as [|t ts]; [left; now inversion K|].
  inversion K as [|? k ? ks K1 K2 K3 K4]. exists k. split; [now left|]. rewrite <- M. unfold valid_key. exists t. split; [now left|]. rewrite K1. now destruct k.
Qed.

(** ** What the blocks mean to the peer *)
Definition owns (me : ep) (i : N) : Prop := in_ivs (map iv (e_subs me)) i.
Lemma nets_in x me m r q : introduces x me m r -> In q (e_subs me) -> In {| c_prefix := g_prefix q; c_mask := g_mask q |} (r_nets r).
Proof.
  intros I H. pose proof (in_nets _ _ _ _ I) as E. apply (in_map (fun q => (g_prefix q, g_mask q))) in H. rewrite <- E in H.
  apply in_map_iff in H. destruct H as ([p k] & H & J). cbn in H. injection H as -> ->. exact J.
Qed.
Lemma in_nets_of x me m r c : introduces x me m r -> In c (r_nets r) -> exists q, In q (e_subs me) /\ c_prefix c = g_prefix q /\ c_mask c = g_mask q.
Proof.
  intros I H. pose proof (in_nets _ _ _ _ I) as E. apply (in_map (fun c => (c_prefix c, c_mask c))) in H. rewrite E in H.
  apply in_map_iff in H. destruct H as (q & H & J). injection H as A B. now exists q.
Qed.
(** Merging does not tear a block apart. *)
Definition inside (r q : range) : Prop := g_min q <= g_min r /\ g_max r <= g_max q.
Lemma settle_cover rest : forall top out, wf top -> Forall wf rest -> settle top rest = Some out ->
  forall r, In r (top :: rest) -> exists q, In q out /\ inside r q.
Proof.
  induction rest as [|below rest IH]; intros top out Ht Hr E r I.
  - cbn in E. injection E as <-. exists r. split; [exact I|unfold inside; lia].
  - inversion_clear Hr as [|? ? Hb Hr']. cbn [settle] in E.
    assert (Hsame : Some (top :: below :: rest) = Some out -> exists q, In q out /\ inside r q).
    { intros H. injection H as <-. exists r. split; [exact I|unfold inside; lia]. }
    destruct ((g_mask top =? g_mask below) && (g_min top =? wrap64 (g_max below + 1))) eqn:E1; [|auto].
    apply andb_prop in E1. destruct E1 as [E1 _]. apply N.eqb_eq in E1.
    destruct (mk_range (g_min below) (g_mask below + 1)) as [up|] eqn:Eu; [|discriminate].
    destruct (mk_range_wf _ _ _ Eu) as (Hu & Hum & _).
    destruct ((g_max up =? g_max top) && (g_min up =? g_min below)) eqn:E2; [|auto].
    apply andb_prop in E2. rewrite !N.eqb_eq in E2. destruct E2 as [E2 E3].
    pose proof (wf_size _ Hu) as Su. pose proof (wf_size _ Ht) as St. pose proof (wf_size _ Hb) as Sb.
    rewrite Hum in Su. rewrite E1 in *. rewrite N.pow_add_r in Su. change (2 ^ 1) with 2 in Su.
    assert (X : forall x, In x (up :: rest) -> inside r x -> exists q, In q out /\ inside r q).
    { intros x X Y. destruct (IH up out Hu Hr' E x X) as (q & Q & Z). exists q. split; [exact Q|]. unfold inside in *. lia. }
    destruct I as [<-|[<-|I]]; [apply (X up); [now left|unfold inside; lia]..|apply (X r); [now right|unfold inside; lia]].
Qed.
Lemma merge_all_cover l : forall top rest out, wf top -> Forall wf rest -> Forall wf l -> sorted l ->
  Forall (fun y => g_max top <= g_max y) l -> merge_all (top :: rest) l = Some out ->
  forall r, In r (top :: rest) \/ In r l -> exists q, In q out /\ inside r q.
Proof.
  induction l as [|x l IH]; intros top rest out Ht Hr Hl Hs Hm E r I.
  - cbn in E. injection E as <-. change (rev rest ++ [top]) with (rev (top :: rest)). destruct I as [I|[]]. exists r.
    split; [apply -> in_rev; exact I|unfold inside; lia].
  - inversion_clear Hl as [|? ? Hx Hl']. inversion_clear Hm as [|? ? Hmx _].
    pose proof (sorted_maxes x x l Hs ltac:(lia)) as Hnx. inversion_clear Hnx as [|? ? _ Hnext].
    inversion_clear Hs as [|? ? _ Hsl]. cbn [merge_all merge_one] in E.
    assert (ST : forall stk s, Forall wf stk -> settle x stk = Some s -> merge_all s l = Some out ->
      (forall y, In y (x :: stk) \/ In y l -> exists q, In q out /\ inside y q)).
    { intros stk s Wk Es Em y Y. destruct (settle_union _ _ _ Hx Wk Es) as (Ws & _ & t & o & -> & Mt). inversion_clear Ws as [|? ? Wt Wo].
      rewrite <- Mt in Hnext. specialize (IH t o out Wt Wo Hl' Hsl Hnext Em). destruct Y as [Y|Y]; [|apply IH; now right].
      destruct (settle_cover _ _ _ Hx Wk Es y Y) as (q & Q & Z). destruct (IH q (or_introl Q)) as (q' & Q' & Z'). exists q'. split; [exact Q'|].
      unfold inside in *. lia. }
    destruct (N.leb_spec (g_min x) (g_min top)) as [Hc|Hc].
    + destruct (settle x rest) as [s|] eqn:Es; [|discriminate]. specialize (ST rest s Hr Es E).
      destruct I as [[<-|I]|[<-|I]]; [|apply ST; left; now right|apply ST; left; now left|apply ST; now right].
      destruct (ST x (or_introl (or_introl eq_refl))) as (q & Q & Z). exists q. split; [exact Q|]. unfold inside in *. lia.
    + destruct (settle x (top :: rest)) as [s|] eqn:Es; [|discriminate]. specialize (ST (top :: rest) s ltac:(now constructor) Es E).
      destruct I as [I|[<-|I]]; [apply ST; left; now right|apply ST; left; now left|apply ST; now right].
Qed.
Lemma merge_cover l out : Forall wf l -> merge_subnets l = Some out -> forall r, In r l -> exists q, In q out /\ inside r q.
Proof.
  intros W E r I. destruct (merge_subnets_merges _ _ E) as (s & P & S & M).
  assert (Ws : Forall wf s) by (eapply Permutation_Forall; eauto). apply (Permutation_in r P) in I.
  destruct s as [|x s]; [contradiction|]. cbn [merge_sorted] in M.
  inversion_clear Ws as [|? ? Wx Ws']. pose proof (sorted_maxes x x s S ltac:(lia)) as Hm.
  inversion_clear Hm as [|? ? _ Hm']. inversion_clear S as [|? ? _ S'].
  apply (merge_all_cover s x [] out Wx ltac:(constructor) Ws' S' Hm' M). destruct I as [<-|I]; [left; now left|now right].
Qed.
Lemma conf_in id cs l auto c : conf_ranges id cs = Some (l, auto) -> In c cs -> exists r, In r l /\ mk_range (if c_prefix c =? 0 then id else c_prefix c) (c_mask c) = Some r.
Proof.
  revert l auto. induction cs as [|d cs IH]; intros l auto E I; [contradiction|]. cbn [conf_ranges] in E. destruct (conf_ranges id cs) as [[l1 a1]|]; [|discriminate].
  specialize (IH l1 a1 eq_refl). destruct I as [<-|I].
  - destruct (c_prefix d =? 0).
    + destruct (mk_range id (c_mask d)) as [x|]; [|discriminate]. injection E as <- <-. exists x. split; [now left|reflexivity].
    + destruct (mk_range (c_prefix d) (c_mask d)) as [x|]; [|discriminate]. destruct (conf_contain d id); [|discriminate]. injection E as <- <-.
      exists x. split; [now left|reflexivity].
  - destruct (IH I) as (r & R & M). exists r. split; [|exact M]. destruct (c_prefix d =? 0).
    + destruct (mk_range id (c_mask d)) as [x|]; [|discriminate]. injection E as <- <-. now right.
    + destruct (mk_range (c_prefix d) (c_mask d)) as [x|]; [|discriminate]. destruct (conf_contain d id); [|discriminate]. injection E as <- <-. now right.
Qed.
Lemma endpoint_cover id cs l c r : id <> 0 -> endpoint_subnets id cs = Some l -> In c cs ->
  mk_range (if c_prefix c =? 0 then id else c_prefix c) (c_mask c) = Some r -> exists q, In q l /\ inside r q.
Proof.
  intros Z E I M. unfold endpoint_subnets in E. destruct (endpoint_ranges id cs) as [l0|] eqn:R; [|discriminate].
  destruct (endpoint_ranges_spec id cs l0 Z R) as [W _]. apply (merge_cover l0 l W E).
  unfold endpoint_ranges in R. destruct (conf_ranges id cs) as [[l1 auto]|] eqn:C; [|discriminate].
  destruct (conf_in id cs l1 auto c C I) as (r' & I' & M'). assert (r' = r) by congruence. subst r'.
  destruct auto; [|injection R as <-; exact I']. destruct (mk_range id 0); [|discriminate]. injection R as <-. apply in_or_app. now left.
Qed.
(** A node whose own endpoint is as its configuration says, without a block that a peer
    would take for one around the id. *)
Record regular (x : cfg) (me : ep) : Prop := {
  rg_id : e_id me <> 0;
  rg_subs : endpoint_subnets (e_id me) (x_nets x) = Some (e_subs me);
  rg_nonzero : forall q, In q (e_subs me) -> g_prefix q <> 0 }.
Lemma asked_own x me m r : regular x me -> introduces x me m r -> forall i, asked r i <-> owns me i.
Proof.
  intros [RZ RS RN] I i. unfold asked, owns. destruct (endpoint_subnets_spec _ _ _ RZ RS) as [W IN]. pose proof (endpoint_subnets_made _ _ _ RS) as M.
  rewrite Forall_forall in M. rewrite (in_id _ _ _ _ I), <- rs_in_ivs. split.
  - intros [->|(c & C & D)]; [apply IN; now left|]. destruct (in_nets_of _ _ _ _ _ I C) as (q & Q & -> & ->) in D. exists q. split; [exact Q|].
    now apply (made_conf q (M q Q)).
  - intros (q & Q & D). right. eexists. split; [exact (nets_in _ _ _ _ _ I Q)|]. cbn [c_prefix c_mask]. now apply (made_conf q (M q Q)).
Qed.

(** ** The parent takes the child in *)
(** The node [me] fits below [s]: its blocks lie in one of those of [s] without covering
    all of them, and nobody else has any of them. *)
Record fits (s : node) (me : ep) : Prop := {
  f_inside : exists p, In p (map iv (my_subs s)) /\ forall i, owns me i -> in_iv p i;
  f_part : exists i, in_ivs (map iv (my_subs s)) i /\ ~ owns me i;
  f_free : forall x i, In x (routes s) -> owns me i -> ~ in_iv (iv (fst x)) i;
  f_parent : forall p, parent s = Some p -> e_id p <> e_id me }.
(** C71: a node that fits below and has the same tokens is taken in, whatever happened to
    the two of them before. *)
Theorem C71_child_joins s x me c n m r : reachable s -> settled s -> my_id s <> 0 -> unregistered s c ->
  endpoint_subnets (my_id s) (x_nets (cf s)) = Some (my_subs s) -> ~ in_ivs (map iv (my_subs s)) 0 -> k_addr (cs s c) <> x_parent (cf s) ->
  regular x me -> fits s me -> share_tokens x (cf s) ->
  introduces x me m r -> m_body m = BReg false r -> modest (r_nets r) ->
  let s' := recv_item c (RMsg n m) s in exists l, log s' = l ++ log s /\
    ((sent_on c l = [] /\ exists a, reply s m 0%Z a /\ too_big s a) \/
     exists a z, sent_on c l = [(a, z)] /\ reply s m 0%Z a /\ ((0 <= z)%Z -> joined s s' c r l)).
Proof.
  intros R ST MI U OW N0 KA RG [F1 F2 F3 F4] SH I B M. pose proof (asked_own x me m r RG I) as AO. pose proof RG as [RZ RS RN].
  apply C58_child_accepted; trivial.
  - rewrite (in_id _ _ _ _ I). exact RZ.
  - rewrite (in_ver _ _ _ _ I). apply Z.le_refl.
  - exact (shared_keys x (cf s) me m r I SH).
  - constructor.
    + intros d D. destruct (in_nets_of _ _ _ _ _ I D) as (q & Q & -> & _). now apply RN.
    + destruct F1 as (p & P1 & P2). exists p. split; [exact P1|]. intros i A. apply P2, AO, A.
    + destruct F2 as (i & I1 & I2). exists i. split; [exact I1|]. now rewrite AO.
    + intros y i Y A. apply (F3 y i Y), AO, A.
    + intros p P. rewrite (in_id _ _ _ _ I). now apply F4.
Qed.
Print Assumptions C71_child_joins.

(** ** The child takes the parent in *)
(** Every block of [s] lies in a block of [me], [s] has no parent and does not know the id. *)
Record below (s : node) (me : ep) : Prop := {
  b_id : my_id s <> 0;
  b_blocks : forall q, In q (my_subs s) -> g_min q <> 0 /\ exists p, In p (e_subs me) /\ forall i, in_iv (iv q) i -> in_iv (iv p) i;
  b_apart : ~ in_ivs (map iv (my_subs s)) (e_id me);
  b_orphan : parent s = None;
  b_new : get_endpoint s (e_id me) = None }.
Definition dialling (s : node) : Prop := nst s = NConnecting \/ nst s = NLost.
Lemma cover_body c r s x me m : waits c s -> NodeReach.idle s -> Forall wf (my_subs s) -> regular x me -> introduces x me m r -> modest (r_nets r) ->
  below s me -> exists e s2, reg_body c r s = (NodeMsg.welcome c e r s2, 0%Z) /\ e_id e = e_id me /\ parent s2 = Some e /\ self s2 = self s /\ waits c s2 /\
    (exists l, log s2 = l ++ log s /\ sent_on c l = []) /\
    (dialling s -> fl_preg s = true -> fl_shut s = false -> fl_act s2 = true /\ fl_shut s2 = false).
Proof.
  intros W ID WF RG I M [B1 B2 B3 B4 B5]. pose proof W as [W1 W2 W3 W4 W5]. pose proof RG as [RZ RS RN].
  unfold reg_body, is_connected. rewrite W2. cbn [cst_eqb]. rewrite (in_id _ _ _ _ I). destruct (N.eqb_spec (e_id me) 0) as [?|_]; [contradiction|].
  rewrite B5. pose proof (modest_peer (r_id r) _ M) as U. unfold peer_subnets in U. rewrite (in_id _ _ _ _ I) in U.
  destruct (reg_confs (e_id me) (r_nets r)) as [confs|] eqn:RC; [|congruence]. destruct (endpoint_subnets (e_id me) confs) as [subs|] eqn:ES; [|congruence].
  assert (CH : is_child s (e_id me) = false).
  { unfold is_child. apply N.eqb_neq in B1 as B1'. rewrite B1'. unfold ep_is_child. rewrite B1'. apply Bool.not_true_is_false. intro T. apply existsb_exists in T.
    destruct T as (q & Q & T). apply contain_id_iff in T. apply B3, rs_in_ivs. exists q. split; [exact Q|tauto]. }
  rewrite CH. cbn [andb].
  pose proof (far_ep_create c (e_id me) subs (r_pid r) (r_host r) s) as FA. pose proof FA as [FC FV].
  assert (KP : let t := fst (ep_create (e_id me) subs (r_pid r) (r_host r) s) in cs t = cs s /\ fl_reset t = fl_reset s /\ nst t = nst s /\ fl_preg t = fl_preg s /\ fl_act t = fl_act s /\ fl_shut t = fl_shut s).
  { cbv zeta. unfold ep_create. cbn [fst]. repeat split; now rewrite (keeps (g := insert_ping _)). }
  assert (EC : snd (ep_create (e_id me) subs (r_pid r) (r_host r) s) = {| e_ref := nexte s; e_id := e_id me; e_subs := subs |}) by reflexivity.
  destruct (ep_create (e_id me) subs (r_pid r) (r_host r) s) as [s1 e]. cbn [fst snd] in *. destruct KP as (K1 & K2 & K3 & K4 & K5 & K6).
  assert (MY : my_id s1 = my_id s /\ my_subs s1 = my_subs s) by (unfold my_id, my_subs; now rewrite (far_s c _ _ FC)). destruct MY as [MY1 MY2].
  assert (SC : subnets_contain (e_subs e) (my_subs s1) = true).
  { rewrite EC, MY2. cbn [e_subs]. apply subnets_contain_complete; [exact WF|]. intros q Q. destruct (B2 q Q) as (Q1 & p & P1 & P2). split; [exact Q1|].
    assert (MP : mk_range (g_prefix p) (g_mask p) = Some p) by (pose proof (endpoint_subnets_made _ _ _ RS) as MD; rewrite Forall_forall in MD; exact (MD p P1)).
    assert (IC : In {| c_prefix := g_prefix p; c_mask := g_mask p |} confs).
    { pose proof (nets_in _ _ _ _ _ I P1) as X. unfold reg_confs in RC. destruct (existsb_opt _ _) as [[]|]; try discriminate; injection RC as <-; [exact X|].
      apply in_or_app. now left. }
    destruct (endpoint_cover (e_id me) confs subs _ p RZ ES IC) as (o & O1 & O2).
    { cbn [c_prefix c_mask]. specialize (RN p P1). apply N.eqb_neq in RN. now rewrite RN. }
    exists o. split; [exact O1|]. intros i J. apply P2 in J. unfold inside in O2. unfold in_iv, iv in *. cbn [fst snd] in *. lia. }
  rewrite SC. assert (BD : (if bytes_eqb (k_addr (cs s1 c)) (x_parent (cf s1)) then match self s1 with Some _ => E_OK | None => E_NOT_INITED end else E_OK) = E_OK).
  { destruct (bytes_eqb _ _); [|reflexivity]. destruct (self s1) eqn:S1; [reflexivity|]. exfalso. apply B1. rewrite <- MY1. unfold my_id. now rewrite S1. }
  rewrite BD. change (negb (E_OK =? E_OK)%Z) with false. cbv iota.
  unfold add_endpoint. destruct (idle_flags s ID) as [F0 _]. rewrite K2, F0, SC. rewrite MY1. apply N.eqb_neq in B1. rewrite B1. cbn [negb andb].
  rewrite (far_p c _ _ FC), B4. cbv zeta.
  set (s2 := add_ping e (set_parent (Some e) s1)). pose proof (far_addping c e (set_parent (Some e) s1)) as FP. fold s2 in FP.
  assert (P2 : nst s2 = nst s /\ fl_preg s2 = fl_preg s /\ fl_act s2 = fl_act s /\ fl_shut s2 = fl_shut s /\ parent s2 = Some e /\ self s2 = self s).
  { unfold s2. rewrite <- (far_s c _ _ FC), <- K3, <- K4, <- K5, <- K6. repeat split; exact (keeps (g := add_ping e) _). }
  destruct P2 as (P1 & P2 & P3 & P4 & P5 & P6).
  assert (WA : waits c s2).
  { apply (waits_far c (set_parent (Some e) s1)); [|exact FP]. apply (waits_far c s s1 W) in FA. destruct FA. now constructor. }
  assert (LG : exists l, log s2 = l ++ log s /\ sent_on c l = []).
  { destruct (adds_one c s s1 (far_log c _ _ FC)) as (l1 & L1 & A1 & _). destruct (adds_one c _ s2 (far_log c _ _ (proj1 FP))) as (l2 & L2 & A2 & _).
    exists (l2 ++ l1). split; [rewrite L2; cbn [log set_parent]; rewrite L1; apply app_assoc|now rewrite sent_app, A1, A2]. }
  clearbody s2. set (s3 := if (nstate_eqb (nst s2) NLost || nstate_eqb (nst s2) NConnecting) && fl_preg s2 then on_actived s2 else s2).
  assert (L3 : exists l, log s3 = l ++ log s /\ sent_on c l = []).
  { destruct LG as (l & L & S). unfold s3. destruct (_ && _); [|eauto]. unfold on_actived. cbv zeta. change (fl_act (set_nst NRunning s2)) with (fl_act s2). destruct (fl_act s2); [exists l; split; [exact L|exact S]|].
    exists (TUp :: l). split; [cbn; now rewrite L|exact S]. }
  assert (A3 : parent s3 = Some e /\ self s3 = self s /\ waits c s3 /\ (dialling s -> fl_preg s = true -> fl_shut s = false -> fl_act s3 = true /\ fl_shut s3 = false)).
  { unfold s3. destruct ((nstate_eqb (nst s2) NLost || nstate_eqb (nst s2) NConnecting) && fl_preg s2) eqn:CD.
    - unfold on_actived. cbv zeta. change (fl_act (set_nst NRunning s2)) with (fl_act s2). destruct (fl_act s2) eqn:FF.
      + split; [exact P5|]. split; [exact P6|]. split; [destruct WA; now constructor|]. intros _ _ Y. split; [exact FF|]. now rewrite <- P4 in Y.
      + split; [exact P5|]. split; [exact P6|]. split; [destruct WA; now constructor|]. intros _ _ Y. split; [reflexivity|]. now rewrite <- P4 in Y.
    - split; [exact P5|]. split; [exact P6|]. split; [exact WA|]. intros D PR. rewrite P1, P2, PR in CD. destruct D as [D|D]; rewrite D in CD; discriminate. }
  destruct A3 as (A1 & A2 & A3 & A4). clearbody s3. exists e, (emit (TAdded (e_ref e)) s3).
  change (E_OK <? 0)%Z with false. cbv iota. split; [reflexivity|]. split; [now rewrite EC|]. split; [exact A1|]. split; [exact A2|]. split; [destruct A3; now constructor|]. split; [|exact A4].
  destruct L3 as (l & L & S). exists (TAdded (e_ref e) :: l). split; [cbn; now rewrite L|exact S].
Qed.

Lemma kd_after c p : kd (fst p) (after_recv c p).
Proof. destruct p as [s z]. unfold after_recv. cbn [fst]. wgo. Qed.
Lemma up_phase s : reachable s -> fl_act s = true -> fl_shut s = false -> phase_of (rev (log s)) = Some NodeSpec.Up.
Proof.
  intros R A B. pose proof (reachable_updown s R) as X. unfold updown in X. destruct (phase_of (rev (log s))) as [[]|]; trivial; [congruence|destruct X; congruence|contradiction].
Qed.
(** Data that arrives on a stream connection of a running node leads to a reachable state. *)
Lemma recv_reachable s c i : reachable s -> nst s <> NCreated -> k_kind (cs s c) = KSock -> reachable (recv_item c i s).
Proof.
  intros (k & evs & R) N K. exists k, (evs ++ [EIo (IRecv c i)]). rewrite NodeTime.run_app, R. cbn [run]. unfold step, step_ret. cbn [option_map fst].
  unfold io_step. rewrite K. destruct (nst s); [contradiction|reflexivity..].
Qed.
(** C71: a node that lies below a peer with the same tokens takes it as its parent. *)
Theorem C71_parent_joins s x me c n m r : reachable s -> unregistered s c ->
  endpoint_subnets (my_id s) (x_nets (cf s)) = Some (my_subs s) ->
  regular x me -> below s me -> share_tokens x (cf s) ->
  introduces x me m r -> m_body m = BReg false r -> modest (r_nets r) ->
  let s' := recv_item c (RMsg n m) s in exists l, log s' = l ++ log s /\
    ((sent_on c l = [] /\ exists a, reply s m 0%Z a /\ too_big s a) \/
     exists a z, sent_on c l = [(a, z)] /\ reply s m 0%Z a /\
       ((0 <= z)%Z -> joined s s' c r l /\ exists e, parent s' = Some e /\ e_id e = e_id me)) /\
    (dialling s -> fl_preg s = true -> fl_shut s = false -> fl_act s' = true /\ fl_shut s' = false).
Proof.
  intros R U OW RG BL SH I B M. cbv zeta. pose proof BL as [B1 B2 B3 B4 B5]. destruct (endpoint_subnets_spec _ _ _ B1 OW) as [WF _].
  assert (SE : self s <> None) by (intro X; apply B1; unfold my_id; now rewrite X).
  assert (RZ : r_id r <> 0) by (rewrite (in_id _ _ _ _ I); apply RG).
  destruct (registration s c n m r R SE U B RZ M) as (l & code & L & (C1 & C2 & C3 & C4) & D).
  assert (V : (ver <= h_ver (m_head m))%Z) by (rewrite (in_ver _ _ _ _ I); apply Z.le_refl).
  pose proof (shared_keys x (cf s) me m r I SH) as K. apply key_fine_ok in K. destruct (D V K) as (s1 & E1 & W & E2).
  assert (ID : NodeReach.idle s1) by (subst s1; apply (reachable_good s R)).
  assert (BL1 : below s1 me) by (subst s1; constructor; [exact B1|exact B2|exact B3|exact B4|exact B5]). assert (WF1 : Forall wf (my_subs s1)) by (subst s1; exact WF).
  destruct (cover_body c r s1 x me m W ID WF1 RG I M BL1) as (e & s2 & RB & EI & PA & SS & W2 & (l0 & L0 & N0) & UP).
  rewrite RB in E2. cbn [snd] in E2. subst code. exists l. split; [exact L|].
  destruct (far_welcome c e r s2 (w_free _ _ W2) (w_hand _ _ W2) (w_old _ _ W2)) as [FW VW].
  assert (EQ : exists p, p = send_reg true c 0%Z (h_seq (m_head m)) (NodeMsg.welcome c e r s2) /\ recv_item c (RMsg n m) s = after_recv c p).
  { eexists. split; [reflexivity|]. pose proof (reachable_Inv s R) as IV. cbn [recv_item]. cbv zeta. rewrite stamp_pull.
    assert (ST : stamp s c m = m) by (unfold stamp; destruct (I_conn s IV c) as (_ & X & _); now rewrite (X (proj1 (proj2 U)))).
    rewrite ST, on_recv_eq. rewrite <- E1. unfold dispatch_msg. rewrite B. unfold reg_req. apply Z.ltb_ge in V. rewrite V.
    assert (K1 : keys_ok (cf s1) (r_keys r) = true) by (rewrite E1; exact K). rewrite K1. cbn [negb]. rewrite RB.
    assert (FD : k_fd (cs (NodeMsg.welcome c e r s2) c) = true) by (unfold view in VW; injection VW as _ _ _ X; rewrite X; apply W2). rewrite FD.
    destruct (send_reg true c 0%Z (h_seq (m_head m)) (NodeMsg.welcome c e r s2)) as [s3 z]. reflexivity. }
  destruct EQ as (p & EP & EQ). split.
  - destruct C2 as [(C2 & [[X1 _]|C5])|(a & z & S & RP)]; [contradiction|left; now split|]. right. exists a, z. split; [exact S|]. split; [exact RP|].
    intro P. split; [exact (C4 eq_refl a z S P)|]. exists e. split; [|exact EI].
    assert (VV := VW). rewrite (w_sock _ _ W2), (w_fd _ _ W2) in VV. unfold view in VV. injection VV as V1 V2 V3 V4.
    assert (S0 : self (NodeMsg.welcome c e r s2) <> None) by (rewrite (far_s c _ _ FW), SS; subst s1; exact SE).
    destruct (send_reg_once c m 0%Z _ S0 (or_intror V2) V3) as (s3 & a' & [F _] & _ & SP). rewrite <- EP in SP. rewrite EQ in *.
    destruct (adds_one c s2 _ (far_log c _ _ FW)) as (l1 & L1 & A1 & _). destruct (adds_one c _ s3 (far_log c _ _ F)) as (l2 & L2 & A2 & _).
    destruct (hushed_after c p) as (l4 & L4 & F4). pose proof (hushed_sent c l4 F4) as S4. subst s1. destruct SP as [SP|(_ & _ & SP)].
    + destruct SP as [(k & L3) SR SPP _ _ _ _ _ _].
      assert (LL : l = l4 ++ [TSend c a' k (snd p)] ++ l2 ++ l1 ++ l0) by (apply (app_inv_tail (log s)); rewrite <- L, L4, L3, L2, L1, L0, <- !app_assoc; reflexivity).
      rewrite LL, !sent_app, S4, A2, A1, N0 in S. cbn in S. rewrite N.eqb_refl in S. injection S as _ S. subst z.
      destruct p as [s4 z]. cbn [fst snd] in *. destruct (after_fine c s4 z P) as [G _]. rewrite (far_p c _ _ G), SPP, (far_p c _ _ F), (far_p c _ _ FW). exact PA.
    + assert (LL : l = l4 ++ l2 ++ l1 ++ l0) by (apply (app_inv_tail (log s)); rewrite <- L, L4, SP, L2, L1, L0, <- !app_assoc; reflexivity).
      rewrite LL, !sent_app, S4, A2, A1, N0 in S. discriminate S.
  - intros DI PR FS. assert (X : fl_act s2 = true /\ fl_shut s2 = false) by (apply UP; subst s1; trivial). destruct X as [X1 X2].
    pose proof (kd_welcome c e r s2) as K1. pose proof (kd_send_reg true c 0%Z (h_seq (m_head m)) (NodeMsg.welcome c e r s2)) as K2. rewrite <- EP in K2.
    pose proof (kd_after c p) as K3. rewrite <- EQ in K3. destruct (kd_trans _ _ _ (kd_trans _ _ _ K1 K2) K3) as [_ Y]. destruct (Y X1) as [Y1 Y2]. split; congruence.
Qed.
Print Assumptions C71_parent_joins.

(** ** The child comes up *)
Lemma existsb_opt_true {A} (f : A -> option bool) l b : existsb_opt f l = Some b -> forall a, In a l -> f a = Some true -> b = true.
Proof.
  induction l as [|d l IH]; cbn [existsb_opt]; intros E a I T; [contradiction|]. destruct I as [->|I]; [rewrite T in E; congruence|].
  destruct (f d) as [[]|]; [congruence|eauto|discriminate].
Qed.
Lemma take_answer s c n m r x me : share_tokens x (cf s) -> introduces x me m r -> m_body m = BReg true r -> (0 <= h_ret (m_head m))%Z -> nst s = NConnecting ->
  exists s0, s0 = emit (TReg c (h_ret (m_head m))) (on_c c (fun k => set_k_pull (bump (k_pull k) n) k) s) /\
    recv_item c (RMsg n m) s = after_recv c (if is_parent s (e_id me) then (on_actived (parent_reg_done s0), E_OK)
      else match confs_contain_id (r_nets r) (my_id s) with
           | Some true => (parent_reg_done s0, E_OK)
           | Some false => (s0, E_OK)
           | None => (emit (TUb UShift) s0, E_OK)
           end).
Proof.
  intros SH I B Z ST. eexists. split; [reflexivity|]. cbn [recv_item]. cbv zeta. rewrite on_recv_eq. f_equal. unfold dispatch_msg.
  set (s1 := on_c c _ s). assert (HM : m_body (stamp s1 c m) = BReg true r /\ h_ret (m_head (stamp s1 c m)) = h_ret (m_head m)).
  { unfold stamp. destruct (k_bind (cs s1 c)) as [e|]; [|now split]. destruct (e_id (d_ep (es s1 e)) =? 0); now split. }
  destruct HM as [H1 H2]. rewrite H1. unfold reg_rsp. cbv zeta. rewrite H2.
  pose proof (shared_keys x (cf s) me m r I SH) as K. apply key_fine_ok in K.
  change (cf (emit (TReg c (h_ret (m_head m))) s1)) with (cf s). rewrite K. apply Z.ltb_ge in Z. rewrite Z. cbn [negb orb].
  change (nst (emit (TReg c (h_ret (m_head m))) s1)) with (nst s). rewrite ST. rewrite (in_id _ _ _ _ I). reflexivity.
Qed.
(** What becomes of the state when the answer only settles the registration. *)
Lemma settled_rest c z n s : let s' := after_recv c (parent_reg_done (emit (TReg c z) (on_c c (fun k => set_k_pull (bump (k_pull k) n) k) s)), E_OK) in
  fl_preg s' = true /\ fl_shut s' = fl_shut s /\ fl_act s' = fl_act s /\ nst s' = nst s /\ parent s' = parent s /\ self s' = self s /\ cf s' = cf s /\ routes s' = routes s /\
  nextc s' = nextc s /\ forall d, k_st (cs s' d) = k_st (cs s d) /\ k_kind (cs s' d) = k_kind (cs s d) /\ k_fd (cs s' d) = k_fd (cs s d).
Proof.
  cbv zeta. unfold after_recv, parent_reg_done. cbv zeta. change (E_OK <? 0)%Z with false. cbv iota.
  destruct (_ <? _); destruct (k_bind _); (repeat (split; [reflexivity|])); intro d; cbn; unfold upd; cbn; destruct (N.eqb_spec d c) as [-> | _]; rewrite ?N.eqb_refl; repeat split.
Qed.
(** C71: a node that waits for its parent and has it as a peer is up once that accepts the
    registration. *)
Theorem C71_up_by_answer s x me c n m r p : reachable s -> nst s = NConnecting -> fl_shut s = false -> k_kind (cs s c) = KSock -> my_id s <> 0 ->
  parent s = Some p -> e_id p = e_id me -> share_tokens x (cf s) -> introduces x me m r -> m_body m = BReg true r -> (0 <= h_ret (m_head m))%Z ->
  let s' := recv_item c (RMsg n m) s in phase_of (rev (log s')) = Some NodeSpec.Up /\ nst s' = NRunning /\ parent s' = Some p.
Proof.
  intros R ST FS K MI PA EP SH I B Z. cbv zeta. assert (R' : reachable (recv_item c (RMsg n m) s)) by (apply recv_reachable; congruence).
  destruct (take_answer s c n m r x me SH I B Z ST) as (s0 & E0 & E).
  assert (IP : is_parent s (e_id me) = true) by (unfold is_parent; rewrite PA; apply N.eqb_neq in MI; rewrite MI; apply N.eqb_eq; congruence).
  rewrite IP in E. set (s' := recv_item c (RMsg n m) s) in *. clearbody s'.
  assert (X : fl_act s' = true /\ fl_shut s' = false /\ nst s' = NRunning /\ parent s' = Some p).
  { rewrite E. clear E R'. assert (Y : forall t, fl_shut t = fl_shut s -> parent t = parent s -> fl_act (on_actived t) = true /\ fl_shut (on_actived t) = false /\ nst (on_actived t) = NRunning /\ parent (on_actived t) = Some p).
    { intros t T1 T2. unfold on_actived. cbv zeta. change (fl_act (set_nst NRunning t)) with (fl_act t). destruct (fl_act t) eqn:F; cbn; repeat split; congruence. }
    specialize (Y (parent_reg_done s0)). assert (Y1 : fl_shut (parent_reg_done s0) = fl_shut s /\ parent (parent_reg_done s0) = parent s).
    { unfold parent_reg_done. cbv zeta. subst s0. destruct (_ <? _); now split. }
    specialize (Y (proj1 Y1) (proj2 Y1)). set (t := on_actived (parent_reg_done s0)) in *. clearbody t. unfold after_recv. change (E_OK <? 0)%Z with false. cbv iota. destruct (k_bind (cs t c)); exact Y. }
  destruct X as (X1 & X2 & X3 & X4). split; [now apply up_phase|now split].
Qed.
Print Assumptions C71_up_by_answer.
(** C71: a node that waits for its parent and does not have it as a peer yet is up once the
    parent accepts its registration and then registers itself, on whatever connections. *)
Theorem C71_up_by_parent s x me c1 n1 m1 r1 c2 n2 m2 r2 : reachable s -> nst s = NConnecting -> fl_shut s = false -> k_kind (cs s c1) = KSock ->
  endpoint_subnets (my_id s) (x_nets (cf s)) = Some (my_subs s) -> regular x me -> below s me -> share_tokens x (cf s) ->
  introduces x me m1 r1 -> m_body m1 = BReg true r1 -> (0 <= h_ret (m_head m1))%Z ->
  unregistered s c2 -> introduces x me m2 r2 -> m_body m2 = BReg false r2 -> modest (r_nets r2) ->
  let s' := recv_item c2 (RMsg n2 m2) (recv_item c1 (RMsg n1 m1) s) in
  phase_of (rev (log s')) = Some NodeSpec.Up.
Proof.
  intros R ST FS K1 OW RG BL SH I1 BB1 Z U I2 BB2 M. cbv zeta. pose proof BL as [B1 B2 B3 B4 B5].
  assert (RN : r_nets r1 = r_nets r2).
  { pose proof (in_nets _ _ _ _ I1) as A. rewrite <- (in_nets _ _ _ _ I2) in A. revert A. generalize (r_nets r2). induction (r_nets r1) as [|[a b] l IH]; intros [|[a' b'] l'] A; trivial; try discriminate A.
    cbn [map c_prefix c_mask] in A. injection A as -> -> A. now rewrite (IH _ A). }
  assert (CN : confs_contain_id (r_nets r1) (my_id s) = Some true).
  { destruct (endpoint_subnets_spec _ _ _ B1 OW) as [_ AL]. destruct (proj2 (AL (my_id s)) (or_introl eq_refl)) as (q & Q & CQ).
    destruct (B2 q Q) as (_ & p & P & PP). assert (CP := CQ). apply PP in CP.
    assert (MD : SubnetProof.made p) by (pose proof (endpoint_subnets_made _ _ _ (rg_subs _ _ RG)) as MD; rewrite Forall_forall in MD; exact (MD p P)).
    apply (made_conf p MD) in CP. pose proof (nets_in _ _ _ _ _ I1 P) as IN. rewrite RN in *. pose proof (modest_masks _ M) as MM.
    destruct (exists_defined (my_id s) _ MM) as [b E]. unfold confs_contain_id. destruct (r_nets r2) as [|d l] eqn:RR; [contradiction|]. rewrite <- RR in *.
    apply N.eqb_neq in B1. rewrite B1. rewrite E. f_equal. apply (existsb_opt_true _ _ _ E _ IN).
    rewrite Forall_forall in MM. destruct (conf_contain_spec _ (my_id s) (MM _ IN)) as (k & Ek & Hk). rewrite Ek. f_equal. apply Hk. split; [now apply N.eqb_neq|exact CP]. }
  assert (R1 : reachable (recv_item c1 (RMsg n1 m1) s)) by (apply recv_reachable; congruence).
  destruct (take_answer s c1 n1 m1 r1 x me SH I1 BB1 Z ST) as (s0 & E0 & E).
  assert (IP : is_parent s (e_id me) = false) by (unfold is_parent; rewrite B4; now destruct (my_id s =? 0)).
  rewrite IP, CN, E0 in E. destruct (settled_rest c1 (h_ret (m_head m1)) n1 s) as (F1 & F2 & F3 & F4 & F5 & F6 & F7 & F8 & F9 & F10). rewrite <- E in *.
  set (s1 := recv_item c1 (RMsg n1 m1) s) in *. clearbody s1. clear E E0 s0.
  assert (MY : my_id s1 = my_id s /\ my_subs s1 = my_subs s) by (unfold my_id, my_subs; now rewrite F6). destruct MY as [MY1 MY2].
  assert (U1 : unregistered s1 c2) by (destruct (F10 c2) as (X1 & X2 & X3); unfold unregistered; now rewrite F9, X1, X2, X3).
  assert (BL1 : below s1 me).
  { constructor; rewrite ?MY1, ?MY2, ?F5; trivial. unfold get_endpoint, is_parent in *. now rewrite MY1, F5, F8. }
  destruct (C71_parent_joins s1 x me c2 n2 m2 r2 R1 U1) as (l & L & _ & UP); trivial; rewrite ?MY1, ?MY2, ?F7; trivial.
  assert (NC : nst s1 <> NCreated) by congruence. assert (KK : k_kind (cs s1 c2) = KSock) by apply U1.
  destruct UP as [A1 A2]; [left; congruence|exact F1|congruence|]. apply up_phase; trivial. now apply recv_reachable.
Qed.
Print Assumptions C71_up_by_parent.

(** ** Cases *)
(** Node 65536 below node 1, whose blocks are 0-16777215, and below it node 66051 with
    66048-66303; all of them have two tokens. *)
Definition keyed nets pa : cfg :=
  {| x_nets := nets; x_parent := pa; x_loop := 128; x_ttl := 16; x_ping := 8; x_retry := 3;
     x_first := 30; x_tol := 2; x_backlog := 128; x_msg := 262144; x_tokens := [[1; 2; 3]; [4]];
     x_pid := 9; x_host := [2]; x_mac := fun t n => (N.of_nat (length t) + n, n);
     x_size := fun m => 40; x_cmd := 0; x_reply := fun _ => [] |}.
Definition node1 : ep := {| e_ref := 1; e_id := 1; e_subs := [{| g_prefix := 1; g_mask := 24; g_min := 0; g_max := 16777215 |}] |}.
Definition node2 : ep := {| e_ref := 1; e_id := 66051; e_subs := [{| g_prefix := 66051; g_mask := 8; g_min := 66048; g_max := 66303 |}] |}.
Definition xnode1 := keyed [{|c_prefix:=0;c_mask:=24|}] [].
Definition xnode2 := keyed [{|c_prefix:=0;c_mask:=8|}] adr.
Definition intro_of (me : ep) ch : reg := {| r_id := e_id me; r_pid := 9; r_host := [2]; r_chans := ch;
  r_keys := [{| y_salt := 5; y_h1 := 8; y_h2 := 5 |}; {| y_salt := 6; y_h1 := 7; y_h2 := 6 |}];
  r_nets := map (fun q => {| c_prefix := g_prefix q; c_mask := g_mask q |}) (e_subs me) |}.
Lemma intro_ok nets pa me rsp ch : introduces (keyed nets pa) me (msg0 (e_id me) (BReg rsp (intro_of me ch))) (intro_of me ch).
Proof.
  constructor; trivial; [|now repeat constructor]. cbn [intro_of r_nets]. rewrite map_map. reflexivity.
Qed.
Definition asks me ch := RMsg 10 (msg0 (e_id me) (BReg false (intro_of me ch))).
Definition agrees me ch := RMsg 10 (msg0 (e_id me) (BReg true (intro_of me ch))).
Definition cfgk : cfg := set_tokens [[1; 2; 3]; [4]] (set_pa adr cfg0).
Definition dial : list event := [EWorld [] [3; 4; 7; 8]; EInit 65536 cfgk; EStart 100; EIo (IConnected 1 0); EListen adr2; EIo (IAccepted adr2)].
(** The registration the node sends to its parent carries two keys with fresh salts. *)
Example C71_introduction_case : exists s s' m r, run fuel0 [EWorld [] [3; 4; 7; 8]; EInit 65536 cfgk; EStart 100] new_node = Some s /\
  step fuel0 (EIo (IConnected 1 0)) s = Some s' /\ (exists l q z, log s' = l ++ log s /\ In (TSend 1 m q z) l) /\ m_body m = BReg false r /\
  map y_salt (r_keys r) = [3; 4] /\ r_id r = 65536.
Proof.
  edestruct (witness_run (fun s => exists s' m r, step fuel0 (EIo (IConnected 1 0)) s = Some s' /\ (exists l q z, log s' = l ++ log s /\ In (TSend 1 m q z) l) /\
    m_body m = BReg false r /\ map y_salt (r_keys r) = [3; 4] /\ r_id r = 65536) (fun s => (log s, log (io_step (IConnected 1 0) s)))
    [EWorld [] [3; 4; 7; 8]; EInit 65536 cfgk; EStart 100]) as (s & R & s' & m & r & H);
    [vm_compute; reflexivity| |exists s, s', m, r; split; [exact R|exact H]].
  intros s E. injection E as E1 E2. eexists (io_step (IConnected 1 0) s), _, _. split; [reflexivity|]. split; [rewrite E1, E2; eexists [_; _], _, _; split; [reflexivity|now left]|]. now repeat split.
Qed.
Example C71_child_case : exists s, reachable s /\ settled s /\ my_id s <> 0 /\ unregistered s 2 /\
  endpoint_subnets (my_id s) (x_nets (cf s)) = Some (my_subs s) /\ ~ in_ivs (map iv (my_subs s)) 0 /\ k_addr (cs s 2) <> x_parent (cf s) /\
  regular xnode2 node2 /\ fits s node2 /\ share_tokens xnode2 (cf s) /\ modest (r_nets (intro_of node2 [])) /\
  added (log (recv_item 2 (asks node2 []) s)) = [2].
Proof.
  observe (fun s => (log s, self s, nextc s, k_st (cs s 2), k_kind (cs s 2), k_fd (cs s 2), k_addr (cs s 2), cf s, parent s, routes s, added (log (recv_item 2 (asks node2 []) s))))
    [EInit 65536 (set_tokens [[1; 2; 3]; [4]] cfg0); EStart 100; EListen adr; EIo (IAccepted adr2)].
  injection E as E1 E2 E3 E4 E5 E6 E7 E8 E9 E10 E11. exists s. split; [exact R|].
  assert (MS : my_subs s = [{| g_prefix := 65536; g_mask := 16; g_min := 65536; g_max := 131071 |}]) by (unfold my_subs; rewrite E2; reflexivity).
  assert (MI : my_id s = 65536) by (unfold my_id; rewrite E2; reflexivity).
  split; [intros e H; rewrite E1 in H; cbn [In] in H; intuition congruence|]. split; [rewrite MI; discriminate|].
  split; [unfold unregistered; rewrite E3, E4, E5, E6; now repeat split|]. split; [rewrite MI, MS, E8; vm_compute; reflexivity|].
  split; [rewrite MS; intros (i & [<-|[]] & X); unfold in_iv, iv in X; cbn [fst snd g_min g_max] in X; lia|]. split; [rewrite E7, E8; discriminate|].
  split; [constructor; [discriminate|vm_compute; reflexivity|intros q [<-|[]]; discriminate]|].
  assert (OW : forall i, owns node2 i -> 66048 <= i <= 66303) by (intros i (q & [<-|[]] & X); unfold in_iv, iv in X; cbn [fst snd g_min g_max] in X; lia).
  split.
  { constructor; rewrite ?MS, ?E9, ?E10.
    - eexists. split; [now left|]. intros i X. apply OW in X. unfold in_iv, iv. cbn [fst snd g_min g_max]. lia.
    - exists 65536. split; [|intro X; apply OW in X; lia]. eexists. split; [now left|]. unfold in_iv, iv. cbn [fst snd g_min g_max]. lia.
    - intros x i [].
    - discriminate. }
  split; [rewrite E8; now split|]. split; [unfold modest, ids_of; cbn; lia|exact E11].
Qed.
(** The parent answers on the connection the node opened (1) and registers on one it
    opened itself (3). *)
Example C71_parent_case : exists s, reachable s /\ nst s = NConnecting /\ fl_shut s = false /\ k_kind (cs s 1) = KSock /\
  endpoint_subnets (my_id s) (x_nets (cf s)) = Some (my_subs s) /\ regular xnode1 node1 /\ below s node1 /\ share_tokens xnode1 (cf s) /\
  unregistered s 3 /\ modest (r_nets (intro_of node1 [adr])) /\
  In TUp (log (recv_item 3 (asks node1 [adr]) (recv_item 1 (agrees node1 [adr]) s))) /\
  ~ In TUp (log (recv_item 1 (agrees node1 [adr]) s)) /\ ~ In TUp (log (recv_item 3 (asks node1 [adr]) s)).
Proof.
  observe (fun s => (nst s, fl_shut s, k_kind (cs s 1), self s, cf s, nextc s, k_st (cs s 3), k_kind (cs s 3), k_fd (cs s 3), parent s, routes s,
    log (recv_item 3 (asks node1 [adr]) (recv_item 1 (agrees node1 [adr]) s)), log (recv_item 1 (agrees node1 [adr]) s), log (recv_item 3 (asks node1 [adr]) s))) dial.
  injection E as E1 E2 E3 E4 E5 E6 E7 E8 E9 E10 E11 E12 E13 E14. exists s. split; [exact R|]. repeat (split; [assumption|]).
  assert (MS : my_subs s = [{| g_prefix := 65536; g_mask := 16; g_min := 65536; g_max := 131071 |}]) by (unfold my_subs; rewrite E4; reflexivity).
  assert (MI : my_id s = 65536) by (unfold my_id; rewrite E4; reflexivity).
  split; [rewrite MI, MS, E5; vm_compute; reflexivity|]. split; [constructor; [discriminate|vm_compute; reflexivity|intros q [<-|[]]; discriminate]|].
  split.
  { constructor; rewrite ?MS, ?MI; [discriminate| | |exact E10|unfold get_endpoint, is_parent; rewrite MI, E10, E11; reflexivity].
    - intros q [<-|[]]. split; [discriminate|]. eexists. split; [now left|]. intros i. unfold in_iv, iv. cbn [fst snd g_min g_max]. lia.
    - intros (q & [<-|[]] & X). unfold in_iv, iv in X. cbn [fst snd g_min g_max node1 e_id] in X. lia. }
  split; [rewrite E5; now split|]. split; [unfold unregistered; rewrite E6, E7, E8, E9; now repeat split|]. split; [unfold modest, ids_of; cbn; lia|].
  split; [refine (eq_ind_r (fun l => In TUp l) _ E12); cbn [In]; tauto|].
  split; [refine (eq_ind_r (fun l => ~ In TUp l) _ E13)|refine (eq_ind_r (fun l => ~ In TUp l) _ E14)]; cbn [In]; intuition congruence.
Qed.
(** The other order: the parent registers first and answers then. *)
Example C71_answer_case : exists s p, reachable s /\ nst s = NConnecting /\ fl_shut s = false /\ k_kind (cs s 1) = KSock /\ my_id s <> 0 /\
  parent s = Some p /\ e_id p = e_id node1 /\ share_tokens xnode1 (cf s) /\ ~ In TUp (log s) /\ In TUp (log (recv_item 1 (agrees node1 [adr]) s)).
Proof.
  observe (fun s => (nst s, fl_shut s, k_kind (cs s 1), self s, cf s, parent s, log s, log (recv_item 1 (agrees node1 [adr]) s))) (dial ++ [EIo (IRecv 3 (asks node1 [adr]))]).
  injection E as E1 E2 E3 E4 E5 E6 E7 E8. eexists s, _. split; [exact R|]. repeat (split; [assumption|]).
  split; [unfold my_id; rewrite E4; discriminate|]. split; [exact E6|]. split; [reflexivity|]. split; [rewrite E5; now split|].
  split; [rewrite E7; cbn [In]; intuition congruence|refine (eq_ind_r (fun l => In TUp l) _ E8); cbn [In]; tauto].
Qed.
(** The state has to be the one before the parent was lost again, and it can be lost although
    nothing is wrong with it: a node that does not listen opens a second connection, to the
    address the parent announces. If that fails before the answer has come, the node closes the
    first connection as well and shuts down. *)
Theorem C71_redial_refuted : exists s s' p, reachable s /\ nst s = NConnecting /\ parent s = Some p /\ e_id p = e_id node1 /\ fl_shut s = false /\
  k_st (cs s 1) = Connected /\ In 2 (pend s) /\ k_addr (cs s 2) = x_parent (cf s) /\
  step fuel0 (EIo (IConnected 2 (-111))) s = Some s' /\ fl_shut s' = true /\ fl_act s' = false /\ k_st (cs s' 1) <> Connected /\ In (TClose 1) (log s').
Proof.
  edestruct (witness_run (fun s => exists s' p, nst s = NConnecting /\ parent s = Some p /\ e_id p = e_id node1 /\ fl_shut s = false /\
  k_st (cs s 1) = Connected /\ In 2 (pend s) /\ k_addr (cs s 2) = x_parent (cf s) /\
  step fuel0 (EIo (IConnected 2 (-111))) s = Some s' /\ fl_shut s' = true /\ fl_act s' = false /\ k_st (cs s' 1) <> Connected /\ In (TClose 1) (log s'))
   (fun s => (nst s, parent s, fl_shut s, k_st (cs s 1), pend s, k_addr (cs s 2), x_parent (cf s),
      (fun s' => (fl_shut s', fl_act s', k_st (cs s' 1), log s')) (io_step (IConnected 2 (-111)) s)))
   [EInit 65536 cfgk; EStart 100; EIo (IConnected 1 0); EIo (IRecv 1 (asks node1 [adr]))]) as (s & R & s' & p & H);
   [vm_compute; reflexivity| |exists s, s', p; split; [eexists _, _; exact R|exact H]].
  intros s E. injection E as E1 E2 E3 E4 E5 E6 E7 E8 E9 E10 E11.
  eexists (io_step (IConnected 2 (-111)) s), _. split; [exact E1|]. split; [exact E2|]. split; [reflexivity|]. repeat (split; [assumption|]). split; [rewrite E5; now left|]. split; [now rewrite E6, E7|]. split; [reflexivity|].
  split; [exact E8|]. split; [exact E9|]. split; [rewrite E10; discriminate|]. rewrite E11. now left.
Qed.
Print Assumptions C71_redial_refuted.
