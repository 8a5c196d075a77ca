(** C71 for two nodes with arbitrary histories: nothing is assumed about what the nodes hold
    as their own blocks. *)
From Coq Require Import Permutation.
From Verif Require Import Base Subnet SubnetSpec SubnetProof Route RouteProof Address NodeTypes NodeConn NodeCore NodeMsg Node
  NodeFrame NodeCtx NodeReset NodeInv NodeKeep NodeSteps NodeReach NodeSpec NodeLog NodeNotice NodeRoute NodeTrace NodeHandle NodeAuth
  PropNodeMsg PropNodeAuth PropNet PropCmd PropUb NodeReg NodeExample NodeStay PropStay PropReg NodeTime ShakeSpec NodeIntro PropShake.
Local Open Scope N_scope.
Ltac Zify.zify_post_hook ::= idtac.

(** ** A node's own blocks are those of its configuration *)
(** Computing a block with an undefined shift (C19) is the only way out. *)
Definition configured (s : node) : Prop :=
  forall me, self s = Some me -> In (TUb UShift) (log s) \/ endpoint_subnets (e_id me) (x_nets (cf s)) = Some (e_subs me).
Lemma adds_in (P : tr -> Prop) s s' t : adds P s s' -> In t (log s) -> In t (log s').
Proof. intros (l & -> & _) I. apply in_or_app. now right. Qed.
Lemma configured_ki s s' : ki s s' -> configured s -> configured s'.
Proof.
  intros [A B C] D me E. rewrite B in E. destruct (D me E) as [F|F]; [left|right; now rewrite A].
  eapply adds_in; eauto.
Qed.
Lemma configured_init i x s : configured (fst (init i x s)).
Proof.
  unfold init. set (s1 := match nst s with NCreated => s | _ => reset s end). cbv zeta. clearbody s1.
  destruct (endpoint_subnets i (x_nets x)) as [subs|] eqn:ES; [|intros me _; left; now left].
  assert (EE : snd (ep_create i subs (x_pid x) (x_host x) (set_cf x s1)) = {| e_ref := nexte s1; e_id := i; e_subs := subs |}) by reflexivity.
  pose proof (kc_ep_create i subs (x_pid x) (x_host x) (set_cf x s1)) as [K _ _ _].
  destruct (ep_create _ _ _ _ _) as [s2 e]. cbn [fst snd] in *. subst e.
  set (e := {| e_ref := _ |}) in *. set (s3 := match self (set_cf x s1) with Some o => _ | None => _ end).
  assert (B : cf s3 = x /\ self s3 = Some e).
  { subst s3. destruct (self (set_cf x s1)) as [o|]; [|now split]. destruct (kc_ep_drop (e_ref o) (set_self (Some e) s2)) as [K1 K2 _ _]. split; [rewrite K1; exact K|rewrite K2; reflexivity]. }
  clearbody s3. destruct B as [B1 B2]. destruct (kc_clear_ping (e_ref e) s3) as [C1 C2 _ _]. intros me E. right.
  cbn [set_nst set_qdata set_qcmd cf self] in *. rewrite C2, B2 in E. rewrite C1, B1. injection E as <-. exact ES.
Qed.
Lemma configured_step k ev s s' : step k ev s = Some s' -> configured s -> configured s'.
Proof. intros E C. destruct (ki_step k ev s s' E) as [(i & x & _ & ->)|K]; [apply configured_init|eapply configured_ki; eauto]. Qed.
Lemma configured_run n evs : forall s s', run n evs s = Some s' -> configured s -> configured s'.
Proof.
  induction evs as [|ev evs IH]; intros s s' E C; cbn [run] in E; [injection E as <-; exact C|].
  destruct (step n ev s) as [s1|] eqn:S; [|discriminate]. apply (IH s1); trivial. eapply configured_step; eauto.
Qed.
Theorem C71_own_blocks : forall s me, reachable s -> self s = Some me -> ~ In (TUb UShift) (log s) ->
  endpoint_subnets (e_id me) (x_nets (cf s)) = Some (e_subs me).
Proof.
  intros s me (n & evs & R) M N. assert (C : configured s) by (apply (configured_run n evs new_node s R); discriminate).
  destruct (C me M); [contradiction|trivial].
Qed.
Print Assumptions C71_own_blocks.
Lemma own_blocks s : reachable s -> my_id s <> 0 -> ~ In (TUb UShift) (log s) -> endpoint_subnets (my_id s) (x_nets (cf s)) = Some (my_subs s).
Proof.
  intros R I N. unfold my_id, my_subs in *. destruct (self s) as [me|] eqn:M; [|contradiction]. now apply C71_own_blocks.
Qed.

(** ** Two nodes *)
(** Some step of a node with any history sends the message [m]; [s] is the node's state
    before that step. *)
Definition speaks (s : node) (m : msg) : Prop :=
  reachable s /\ ~ In (TUb UShift) (log s) /\
  exists k ev s' l c q z, step k ev s = Some s' /\ log s' = l ++ log s /\ In (TSend c m q z) l.
(** The node has an id and none of its blocks has prefix 0. *)
Definition proper (s : node) (me : ep) : Prop := self s = Some me /\ e_id me <> 0 /\ forall q, In q (e_subs me) -> g_prefix q <> 0.
Lemma proper_regular s me : reachable s -> ~ In (TUb UShift) (log s) -> proper s me -> regular (cf s) me.
Proof. intros R N (M & I & Z). constructor; trivial. now apply C71_own_blocks. Qed.
Lemma speaks_introduces s me m rsp r : speaks s m -> proper s me -> m_body m = BReg rsp r -> introduces (cf s) me m r.
Proof.
  intros ((n & evs & R) & _ & k & ev & s' & l & c & q & z & S & L & I) (M & _) B.
  destruct (C71_introduction n evs s k ev s' l c m q z rsp r R S L I B) as (me' & M' & X). congruence.
Qed.

(** C71: when a registration that one node sent reaches another that has room for it and the
    same tokens, the sender is taken in as a child, whatever both have done before. *)
Theorem C71_meet_child a b me c n m r : speaks a m -> proper a me -> m_body m = BReg false r -> modest (r_nets r) ->
  reachable b -> ~ In (TUb UShift) (log b) -> settled b -> my_id b <> 0 -> unregistered b c -> ~ in_ivs (map iv (my_subs b)) 0 -> k_addr (cs b c) <> x_parent (cf b) ->
  fits b me -> share_tokens (cf a) (cf b) ->
  let b' := recv_item c (RMsg n m) b in exists l, log b' = l ++ log b /\
    ((sent_on c l = [] /\ exists a, reply b m 0%Z a /\ too_big b a) \/
     exists a z, sent_on c l = [(a, z)] /\ reply b m 0%Z a /\ ((0 <= z)%Z -> joined b b' c r l)).
Proof.
  intros S P B M R N ST MI U Z KA F SH. pose proof S as (Ra & Na & _).
  apply (C71_child_joins b (cf a) me); trivial; [now apply own_blocks|now apply proper_regular|eapply speaks_introduces; eauto].
Qed.
Print Assumptions C71_meet_child.

(** C71: when it reaches a node that lies below the sender, the sender becomes its parent. *)
Theorem C71_meet_parent a b me c n m r : speaks a m -> proper a me -> m_body m = BReg false r -> modest (r_nets r) ->
  reachable b -> ~ In (TUb UShift) (log b) -> unregistered b c -> below b me -> share_tokens (cf a) (cf b) ->
  let b' := recv_item c (RMsg n m) b in exists l, log b' = l ++ log b /\
    ((sent_on c l = [] /\ exists a, reply b m 0%Z a /\ too_big b a) \/
     exists a z, sent_on c l = [(a, z)] /\ reply b m 0%Z a /\
       ((0 <= z)%Z -> joined b b' c r l /\ exists e, parent b' = Some e /\ e_id e = e_id me)).
Proof.
  intros S P B M R N U BL SH. pose proof S as (Ra & Na & _). cbv zeta.
  destruct (C71_parent_joins b (cf a) me c n m r) as (l & L & X & _); trivial;
    [apply own_blocks; trivial; apply BL|now apply proper_regular|eapply speaks_introduces; eauto|now exists l].
Qed.
Print Assumptions C71_meet_parent.

(** C71: a node that waits for its parent is up once it has the parent's answer and the
    parent's registration, each sent by the parent at some point of its history. *)
Theorem C71_meet_up a1 a2 b me c1 n1 m1 r1 c2 n2 m2 r2 : speaks a1 m1 -> speaks a2 m2 -> proper a1 me -> proper a2 me -> cf a1 = cf a2 ->
  m_body m1 = BReg true r1 -> (0 <= h_ret (m_head m1))%Z -> m_body m2 = BReg false r2 -> modest (r_nets r2) ->
  reachable b -> ~ In (TUb UShift) (log b) -> nst b = NConnecting -> fl_shut b = false -> k_kind (cs b c1) = KSock -> unregistered b c2 ->
  below b me -> share_tokens (cf a1) (cf b) ->
  let b' := recv_item c2 (RMsg n2 m2) (recv_item c1 (RMsg n1 m1) b) in phase_of (rev (log b')) = Some NodeSpec.Up.
Proof.
  intros S1 S2 P1 P2 CE B1 Z B2 M R N ST FS K U BL SH. pose proof S1 as (Ra & Na & _).
  apply (C71_up_by_parent b (cf a1) me c1 n1 m1 r1 c2 n2 m2 r2); trivial;
    [apply own_blocks; trivial; apply BL|now apply proper_regular|eapply speaks_introduces; eauto|rewrite CE; eapply speaks_introduces; eauto].
Qed.
Print Assumptions C71_meet_up.

(** Node 66051 connects to node 65536 and registers with it; nothing but the two histories
    and the message is given. *)
Definition dial2 : list event := [EWorld [] [3; 4; 7; 8]; EInit 66051 xnode2; EStart 100].
Definition reg2 : reg := {| r_id := 66051; r_pid := 9; r_host := [2]; r_chans := []; r_keys := [{| y_salt := 3; y_h1 := 6; y_h2 := 3 |}; {| y_salt := 4; y_h1 := 5; y_h2 := 4 |}];
  r_nets := [{| c_prefix := 66051; c_mask := 8 |}] |}.
Definition letter : msg := {| m_head := {| h_ver := 2; h_type := 0; h_ret := 0; h_seq := 1; h_src := 66051 |}; m_body := BReg false reg2 |}.
Lemma dials : exists a, speaks a letter /\ proper a node2 /\ cf a = xnode2.
Proof.
  observe (fun s => (log s, self s, cf s, log (io_step (IConnected 1 0) s))) dial2. injection E as E1 E2 E3 E4.
  exists s. split; [split; [exact R|split; [rewrite E1; cbn [In]; intuition congruence|]]|].
  { exists fuel0, (EIo (IConnected 1 0)), (io_step (IConnected 1 0) s). eexists [_; _], 1, _, _. split; [reflexivity|]. rewrite E1, E4. split; [reflexivity|]. now left. }
  split; [split; [exact E2|split; [discriminate|intros q [<-|[]]; discriminate]]|exact E3].
Qed.
Example C71_meet_case : exists a b, speaks a letter /\ proper a node2 /\ modest (r_nets reg2) /\
  reachable b /\ ~ In (TUb UShift) (log b) /\ settled b /\ my_id b <> 0 /\ unregistered b 2 /\ ~ in_ivs (map iv (my_subs b)) 0 /\ k_addr (cs b 2) <> x_parent (cf b) /\
  fits b node2 /\ share_tokens (cf a) (cf b) /\ added (log (recv_item 2 (RMsg 10 letter) b)) = [2].
Proof.
  destruct dials as (a & A1 & A2 & A3). exists a.
  observe (fun s => (log s, self s, nextc s, k_st (cs s 2), k_kind (cs s 2), k_fd (cs s 2), k_addr (cs s 2), cf s, parent s, routes s, added (log (recv_item 2 (RMsg 10 letter) s))))
    [EInit 65536 (set_tokens [[1; 2; 3]; [4]] cfg0); EStart 100; EListen adr; EIo (IAccepted adr2)].
  injection E as E1 E2 E3 E4 E5 E6 E7 E8 E9 E10 E11. exists s. split; [exact A1|]. split; [exact A2|]. split; [unfold modest, ids_of; cbn; lia|]. split; [exact R|].
  split; [rewrite E1; cbn [In]; intuition congruence|].
  assert (MS : my_subs s = [{| g_prefix := 65536; g_mask := 16; g_min := 65536; g_max := 131071 |}]) by (unfold my_subs; rewrite E2; reflexivity).
  assert (MI : my_id s = 65536) by (unfold my_id; rewrite E2; reflexivity).
  split; [intros e H; rewrite E1 in H; cbn [In] in H; intuition congruence|]. split; [rewrite MI; discriminate|].
  split; [unfold unregistered; rewrite E3, E4, E5, E6; now repeat split|].
  split; [rewrite MS; intros (i & [<-|[]] & X); unfold in_iv, iv in X; cbn [fst snd g_min g_max] in X; lia|]. split; [rewrite E7, E8; discriminate|].
  assert (OW : forall i, owns node2 i -> 66048 <= i <= 66303) by (intros i (q & [<-|[]] & X); unfold in_iv, iv in X; cbn [fst snd g_min g_max] in X; lia).
  split.
  { constructor; rewrite ?MS, ?E9, ?E10.
    - eexists. split; [now left|]. intros i X. apply OW in X. unfold in_iv, iv. cbn [fst snd g_min g_max]. lia.
    - exists 65536. split; [|intro X; apply OW in X; lia]. eexists. split; [now left|]. unfold in_iv, iv. cbn [fst snd g_min g_max]. lia.
    - intros x i [].
    - discriminate. }
  split; [rewrite A3, E8; now split|exact E11].
Qed.
(** The other way round: node 1 registers with the node that connects to it, and answers the
    registration of that node, 65536, which waits for its parent. *)
Definition reg65536 : reg := {| r_id := 65536; r_pid := 9; r_host := [2]; r_chans := []; r_keys := [{| y_salt := 5; y_h1 := 8; y_h2 := 5 |}]; r_nets := [{| c_prefix := 65536; c_mask := 16 |}] |}.
Definition call : list event := [EWorld [] [3; 4; 7; 8]; EInit 1 xnode1; EStart 100; EListen adr].
Definition ask1 : msg := {| m_head := {| h_ver := 2; h_type := 0; h_ret := 0; h_seq := 1; h_src := 1 |};
  m_body := BReg false {| r_id := 1; r_pid := 9; r_host := [2]; r_chans := [adr]; r_keys := [{| y_salt := 3; y_h1 := 6; y_h2 := 3 |}; {| y_salt := 4; y_h1 := 5; y_h2 := 4 |}]; r_nets := [{| c_prefix := 1; c_mask := 24 |}] |} |}.
Definition agree1 : msg := {| m_head := {| h_ver := 2; h_type := 0; h_ret := 0; h_seq := 5; h_src := 1 |};
  m_body := BReg true {| r_id := 1; r_pid := 9; r_host := [2]; r_chans := [adr]; r_keys := [{| y_salt := 7; y_h1 := 10; y_h2 := 7 |}; {| y_salt := 8; y_h1 := 9; y_h2 := 8 |}]; r_nets := [{| c_prefix := 1; c_mask := 24 |}] |} |}.
Lemma asked : exists a, speaks a ask1 /\ proper a node1 /\ cf a = xnode1.
Proof.
  observe (fun s => (log s, self s, cf s, log (io_step (IAccepted adr2) s))) call. injection E as E1 E2 E3 E4.
  exists s. split; [split; [exact R|split; [rewrite E1; cbn [In]; intuition congruence|]]|].
  { exists fuel0, (EIo (IAccepted adr2)), (io_step (IAccepted adr2) s). eexists [_; _], 2, _, _. split; [reflexivity|]. rewrite E1, E4. split; [reflexivity|]. now left. }
  split; [split; [exact E2|split; [discriminate|intros q [<-|[]]; discriminate]]|exact E3].
Qed.
Lemma agreed : exists a, speaks a agree1 /\ proper a node1 /\ cf a = xnode1.
Proof.
  observe (fun s => (log s, self s, cf s, log (io_step (IRecv 2 (RMsg 10 (msg0 65536 (BReg false reg65536)))) s))) (call ++ [EIo (IAccepted adr2)]). injection E as E1 E2 E3 E4.
  exists s. split; [split; [exact R|split; [rewrite E1; cbn [In]; intuition congruence|]]|].
  { exists fuel0, (EIo (IRecv 2 (RMsg 10 (msg0 65536 (BReg false reg65536))))), (io_step (IRecv 2 (RMsg 10 (msg0 65536 (BReg false reg65536)))) s).
    eexists [_; _; _], 2, _, _. split; [reflexivity|]. rewrite E1, E4. split; [reflexivity|]. cbn [In]. tauto. }
  split; [split; [exact E2|split; [discriminate|intros q [<-|[]]; discriminate]]|exact E3].
Qed.
Example C71_meet_up_case : exists a1 a2 b r, speaks a1 agree1 /\ speaks a2 ask1 /\ proper a1 node1 /\ proper a2 node1 /\ cf a1 = cf a2 /\
  m_body ask1 = BReg false r /\ modest (r_nets r) /\ reachable b /\ ~ In (TUb UShift) (log b) /\ nst b = NConnecting /\ fl_shut b = false /\ k_kind (cs b 1) = KSock /\
  unregistered b 3 /\ below b node1 /\ share_tokens (cf a1) (cf b) /\ ~ In TUp (log b) /\
  In TUp (log (recv_item 3 (RMsg 20 ask1) (recv_item 1 (RMsg 20 agree1) b))).
Proof.
  destruct agreed as (a1 & A1 & A2 & A3). destruct asked as (a2 & B1 & B2 & B3). exists a1, a2.
  observe (fun s => (nst s, fl_shut s, k_kind (cs s 1), self s, cf s, nextc s, k_st (cs s 3), k_kind (cs s 3), k_fd (cs s 3), parent s, routes s,
    log (recv_item 3 (RMsg 20 ask1) (recv_item 1 (RMsg 20 agree1) s)), log s)) dial.
  injection E as E1 E2 E3 E4 E5 E6 E7 E8 E9 E10 E11 E12 E13. exists s. eexists. do 4 (split; [assumption|]). split; [congruence|].
  split; [reflexivity|]. split; [unfold modest, ids_of; cbn; lia|]. split; [exact R|]. split; [rewrite E13; cbn [In]; intuition congruence|]. do 3 (split; [assumption|]).
  assert (MS : my_subs s = [{| g_prefix := 65536; g_mask := 16; g_min := 65536; g_max := 131071 |}]) by (unfold my_subs; rewrite E4; reflexivity).
  assert (MI : my_id s = 65536) by (unfold my_id; rewrite E4; reflexivity).
  split; [unfold unregistered; rewrite E6, E7, E8, E9; now repeat split|]. split.
  { constructor; rewrite ?MS, ?MI; [discriminate| | |exact E10|unfold get_endpoint, is_parent; rewrite MI, E10, E11; reflexivity].
    - intros q [<-|[]]. split; [discriminate|]. eexists. split; [now left|]. intros i. unfold in_iv, iv. cbn [fst snd g_min g_max]. lia.
    - intros (q & [<-|[]] & X). unfold in_iv, iv in X. cbn [fst snd g_min g_max node1 e_id] in X. lia. }
  split; [rewrite A3, E5; now split|]. split; [rewrite E13; cbn [In]; intuition congruence|]. refine (eq_ind_r (fun l => In TUp l) _ E12); cbn [In]; tauto.
Qed.
