(** Delivery in a tree of nodes: C28. *)
From Verif Require Import Base Subnet Route RouteProof Address NodeTypes NodeConn NodeCore NodeMsg Node
  NodeFrame NodeReset NodeInv NodeKeep NodeSteps NodeReach NodeSpec NodeLog NodeNotice NodeRoute NodeTrace NodeHandle NodeAuth PropNodeMsg NodeCount
  NetSpec NetProof PropNet Proto PropSize TreeSpec TreeProof NodeExample.
Local Open Scope N_scope.
Ltac Zify.zify_post_hook ::= idtac.

(** One receipt at a node on the way. *)
Lemma one_move t M T i a f m w n : nested t -> member t a -> a <> i -> member t f -> route t a i (S n) ->
  m_body m = BData false w -> w_to w = a -> (ver <= h_ver (m_head m))%Z -> N.of_nat (length (w_content w)) <= M ->
  N.of_nat (length (w_router w) + S n) <= T ->
  ((up t i = Some f /\ area t i a) \/ (up t f = Some i /\ ~ area t f a)) ->
  forall j, route t a j n -> member t j -> ((up t j = Some i /\ area t j a) \/ (up t i = Some j /\ ~ area t i a)) ->
  moves (in_place t M T) i f m j
    {| m_head := {| h_ver := h_ver (m_head m); h_type := h_type (m_head m); h_ret := h_ret (m_head m); h_seq := h_seq (m_head m); h_src := i |};
       m_body := BData false (add_router w i) |}.
Proof.
  intros W MA NE MF RO B TO V LC LR FD j RJ MJ SJ s c k l P (CN & e & KB & FE) L.
  pose proof (P_reach _ _ _ _ _ P) as R. pose proof (P_id _ _ _ _ _ P) as ID. pose proof (P_member _ _ _ _ _ P) as MI.
  assert (A0 : a <> 0) by (intros ->; now apply (T_zero t W)).
  destruct (remote_in_tree t M T i s a n W P MA NE RO) as (x & c' & RM & KB' & DE & CN' & KK & RX & MX & SX).
  assert (XJ : e_id x = j).
  { destruct SX as [[U1 A1]|[U1 A1]], SJ as [[U2 A2]|[U2 A2]].
    - now apply (T_apart t W (e_id x) j i a).
    - exfalso. apply A2. exact (T_nest t W _ _ _ MX U1 A1).
    - exfalso. apply A1. exact (T_nest t W _ _ _ MJ U2 A2).
    - congruence. }
  assert (FX : f <> e_id x).
  { intros ->. destruct SX as [[U1 A1]|[U1 A1]], FD as [[U2 A2]|[U2 A2]]; try tauto.
    all: pose proof (T_depth t W) as (d & D).
    - pose proof (D _ _ MX U1). pose proof (D _ _ MI U2). lia.
    - pose proof (D _ _ MI U1). pose proof (D _ _ MX U2). lia. }
  assert (IX : i <> e_id x).
  { intros E. destruct SX as [[U1 A1]|[U1 A1]]; [apply (step_differs t i (e_id x) W MX U1); congruence|].
    apply (step_differs t (e_id x) i W MI U1). congruence. }
  assert (SRC : h_src (m_head (stamp s c m)) <> e_id x).
  { assert (E0 : e_id (d_ep (es s e)) <> 0).
    { destruct FE as [-> | ->]; [|rewrite ID]; intros Z; apply (T_zero t W); rewrite <- Z; assumption. }
    rewrite (stamp_src s c m e KB E0). destruct FE as [-> | ->]; [exact FX|now rewrite ID]. }
  pose proof (P_ttl _ _ _ _ _ P) as TT.
  destruct (forwards s c k m w x c' R B V CN) as (m' & n' & G & BM).
  { rewrite TO, ID. exact NE. } { now rewrite TO. } { lia. } { now rewrite TO. } { exact KK. } { exact (P_free _ _ _ _ _ P). } { exact SRC. }
  { intros m' B'. apply (P_size _ _ _ _ _ P m' _ B'); [exact LC|]. cbn [add_router w_router]. rewrite app_length. cbn [length]. lia. }
  destruct (C27_forwarded_unchanged s c k m false w c' m' _ n' 0 R B G BM) as (_ & _ & HD & _).
  assert (ME : m' = {| m_head := {| h_ver := h_ver (m_head m); h_type := h_type (m_head m); h_ret := h_ret (m_head m); h_seq := h_seq (m_head m); h_src := i |};
       m_body := BData false (add_router w i) |}).
  { destruct m' as [hm bm]. cbn [m_head m_body] in *. subst bm. rewrite HD, ID. reflexivity. }
  destruct G as (l' & L' & IN). rewrite L in L'. apply app_inv_tail in L' as <-.
  assert (IP : In m' (passed_on false l)).
  { unfold passed_on. apply in_flat_map. eexists. split; [exact IN|]. cbn beta iota. rewrite BM. now left. }
  destruct (receipt_counts s c k m w l R B L) as [C1 C2 C3 C4|m2 C1 C2 C3 C4 C5|m2 C0 C1 C2 C3|m2 C0 C1 C2 C3].
  1-3: rewrite C1 in IP; now elim IP.
  rewrite C1 in *. destruct IP as [->|[]]. rewrite <- ME. split; [reflexivity|]. split; [exact C2|].
  exists c', (e_ref x). split; [eauto|]. split; [exact KB'|]. now rewrite DE.
Qed.
(** The whole way from any node. *)
Lemma all_the_way t M T a : nested t -> member t a -> forall n i f m w, member t i -> member t f -> route t a i n ->
  m_body m = BData false w -> w_to w = a -> (ver <= h_ver (m_head m))%Z -> N.of_nat (length (w_content w)) <= M ->
  N.of_nat (length (w_router w) + n) <= T ->
  ((up t i = Some f /\ area t i a) \/ (up t f = Some i /\ ~ area t f a)) ->
  delivered (in_place t M T) a n i f m.
Proof.
  intros W MA. induction n as [|n IH]; intros i f m w MI MF RO B TO V LC LR FD.
  - inversion RO; subst. constructor. intros s c k l P (CN & _) L.
    destruct (C44_at_target s c k m w l (P_reach _ _ _ _ _ P) B) as (H1 & H2 & _); auto. now rewrite (P_id _ _ _ _ _ P).
  - assert (NE : i <> a).
    { intros ->. inversion RO as [|? j ? N MJ U A R'|? p ? N U R']; subst; [congruence|]. apply N. now apply T_self. }
    destruct (route_step t a i (S n) W MI MA NE RO) as (k & j & E & RJ & D). injection E as <-.
    assert (MJ : member t j) by (destruct D as [(X & _)|[X _]]; [exact X|exact (T_up t W i j MI X)]).
    assert (D' : (up t j = Some i /\ area t j a) \/ (up t i = Some j /\ ~ area t i a)) by tauto.
    eapply Moves; [eapply (one_move t M T i a f m w n); eauto| exact NE | |].
    + unfold alike. cbn [m_head m_body h_ver h_type h_ret h_seq]. repeat (split; [reflexivity|]). exists false, w, (add_router w i). now repeat split.
    + eapply IH; [exact MJ|exact MI|exact RJ|reflexivity|exact TO|exact V|exact LC| |exact D'].
      cbn [add_router w_router]. rewrite app_length. cbn [length]. lia.
Qed.
(** ** C28 *)
(** In a tree of nodes that are all in their places, [send_data] to another node of the
    tree succeeds and the message is delivered: it is sent to the next node of the way,
    each node of the way passes exactly one copy on to the next, and the target, and no
    other node, hands it to its receive callback, once, whatever else happens at the
    nodes in between. *)
Theorem C28_delivery t M T i a n s ty b want q s' r : nested t -> in_place t M T i s -> member t a -> a <> i ->
  route t a i n -> N.of_nat n <= T -> N.of_nat (length b) <= M -> send_data a ty b want q s = (s', r) ->
  r = 0%Z /\ exists c m sz e j k, log s' = TSend c m sz 0 :: log s /\ as_sent s a ty b want q m /\
    k_bind (cs s c) = Some e /\ e_id (d_ep (es s e)) = j /\ n = S k /\ delivered (in_place t M T) a k j i m.
Proof.
  intros W P MA NE RO TT LB E. pose proof (P_reach _ _ _ _ _ P) as R. pose proof (P_id _ _ _ _ _ P) as ID. pose proof (P_member _ _ _ _ _ P) as MI.
  assert (A0 : a <> 0) by (intros ->; now apply (T_zero t W)). pose proof (P_msg _ _ _ _ _ P) as PM.
  destruct n as [|k]; [inversion RO; congruence|].
  destruct (remote_in_tree t M T i s a k W P MA NE RO) as (x & c' & RM & KB' & DE & CN' & KK & RX & MX & SX).
  unfold send_data in E. assert (LBX : (x_msg (cf s) <? N.of_nat (length b)) = false) by (apply N.ltb_ge; lia). rewrite LBX in E.
  assert (NA : (a =? my_id s) = false) by (apply N.eqb_neq; now rewrite ID).
  assert (E' : exists s1 v, v <> 0 /\ (q <> 0 -> v = q) /\
    remote true s1 a = remote true s a /\ log s1 = log s /\ my_id s1 = my_id s /\ nst s1 = nst s /\ cs s1 = cs s /\ cf s1 = cf s /\ orc s1 = orc s /\
    send_to true a {| m_head := {| h_ver := ver; h_type := ty; h_ret := 0%Z; h_seq := v; h_src := my_id s |};
             m_body := BData false
               {| w_from := my_id s; w_to := a; w_router := [my_id s]; w_content := b;
                  w_flags := if want then 1 else 0 |} |} s1 = (s', r)).
  { destruct (nst s) eqn:NS; [now elim (P_live _ _ _ _ _ P)|..]; destruct (N.eqb_spec q 0) as [->|Q]; try (exists s, q; repeat split; auto; fail).
    all: pose proof (alloc_pos s) as AP; unfold alloc_seq in *; cbv zeta in *; cbn [snd] in AP; set (v := if _ =? 0 then 1 else _) in *;
      exists (set_seqn v s), v; repeat split; auto; try congruence; first [exact E|apply remote_seqn|idtac]. }
  destruct E' as (s1 & v & V0 & VQ & RM1 & LG & ID1 & NS & CS & CF & OR & E'). clear E.
  set (m := {| m_head := _; m_body := _ |}) in E'. unfold send_to in E'. rewrite ID1, NA in E'. cbn [andb] in E'.
  assert (PO : post true a m s1 = send_on c' m s1).
  { unfold post. rewrite NS, ID1, NA, RM1, RM. assert (NU : number m s1 = (s1, m)) by (unfold number; subst m; cbn [m_head h_seq]; apply N.eqb_neq in V0; now rewrite V0).
    rewrite NU. destruct (nst s) eqn:NST; [now elim (P_live _ _ _ _ _ P)|reflexivity..]. }
  rewrite PO in E'. clear PO.
  destruct (push_taken c' m s1) as [LG2 RZ].
  { rewrite CF. eapply (P_size _ _ _ _ _ P); [reflexivity|exact LB|]. cbn [w_router length]. lia. }
  { now rewrite CS. } { now rewrite CS. } { rewrite OR. exact (P_free _ _ _ _ _ P). }
  destruct (send_on c' m s1) as [s2 z2]. cbn [fst snd] in *. injection E' as <- <-. split; [exact RZ|].
  exists c', m, (x_size (cf s1) m), (e_ref x), (e_id x), k. rewrite LG in LG2. split; [exact LG2|].
  split; [unfold as_sent, m; cbn [m_body m_head h_type h_src h_seq]; repeat split; auto|]. split; [exact KB'|]. split; [now rewrite DE|]. split; [reflexivity|].
  eapply (all_the_way t M T a W MA k (e_id x) i m); [exact MX|exact MI|exact RX|reflexivity|reflexivity|apply Z.le_refl|exact LB| |].
  - cbn [w_router length]. lia.
  - tauto.
Qed.
(** Between any two nodes of such a tree there is a way. *)
Theorem C28_route t a i : nested t -> member t a -> member t i -> exists n, route t a i n.
Proof. apply route_exists. Qed.
(** The size condition is met by the encoding of protobuf when the ttl is not above 92. *)
Theorem C28_roomy M T other s : x_size (cf s) = wire_size other -> M <= x_msg (cf s) -> M < 2 ^ 31 -> T <= 92 -> roomy M T s.
Proof.
  intros X LM M31 T92 m w B LC LR. rewrite X. unfold wire_size. rewrite B.
  pose proof (C42_size (m_head m) false w) as SZ. assert (X24 : 2 ^ 24 = 16777216) by reflexivity. specialize (SZ ltac:(lia) ltac:(lia)). lia.
Qed.
(** ** A tree of three nodes *)
(** 65536 with the children 65540 and 65541; all three are in their places after their
    start and registration. *)
Definition tree3 : tree := {| member := fun i => i = 65536 \/ i = 65540 \/ i = 65541;
  up := fun i => if i =? 65536 then None else Some 65536;
  area := fun i x => if i =? 65536 then 65536 <= x <= 131071 else x = i |}.
Definition parent_reg := reg0 65536 [{|c_prefix:=65536;c_mask:=16|}].
Definition below i := [EInit i (set_nets [] (set_pa adr cfg0)); EStart 100; EIo (IConnected 1 0);
  EIo (IRecv 1 (RMsg 10 (msg0 65536 (BReg false parent_reg)))); EIo (IRecv 1 (RMsg 10 (msg0 65536 (BReg true parent_reg)))); EIo (IConnected 2 0)].
Definition on_top := boot 65540 [] ++ [EIo (IAccepted adr2); EIo (IRecv 4 (RMsg 10 (msg0 65541 (BReg false (reg0 65541 []))))); EIo (IConnected 5 0)].
Lemma nested3 : nested tree3.
Proof.
  assert (U : forall i p, member tree3 i -> up tree3 i = Some p -> p = 65536 /\ (i = 65540 \/ i = 65541)).
  { intros i p [-> |[-> | ->]]; cbn; intros [= <-]; auto. }
  constructor.
  - cbn. intuition discriminate.
  - intros i p M X. destruct (U i p M X) as [-> _]. now left.
  - exists 65536. intros i [-> |[-> | ->]]; trivial; discriminate.
  - exists (fun i => if i =? 65536 then 0%nat else 1%nat). intros i p M X. destruct (U i p M X) as [-> [-> | ->]]; cbn; lia.
  - intros i [-> |[-> | ->]]; cbn; lia.
  - intros i p x M X. destruct (U i p M X) as [-> [-> | ->]]; cbn; intros ->; lia.
  - intros i j p x Mi Mj Xi Xj. destruct (U i p Mi Xi) as [-> [-> | ->]], (U j _ Mj Xj) as [_ [-> | ->]]; cbn; congruence.
  - intros i p M X. destruct (U i p M X) as [-> [-> | ->]]; cbn; discriminate.
Qed.
Definition facts (s : node) := (my_id s, my_subs s, nst s, self s, orc s, (x_ttl (cf s), x_msg (cf s), x_size (cf s)), (parent s, routes s, my_ref s),
  map (fun c => (k_st (cs s c), k_kind (cs s c))) [1;2;3;4;5], map (fun e => (d_ctrl (es s e), d_data (es s e), d_ep (es s e))) [2;3],
  flat_map (fun t => match t with TAdded e => [e] | _ => [] end) (log s)).
Lemma added_in s e : In (TAdded e) (log s) -> In e (flat_map (fun t => match t with TAdded e => [e] | _ => [] end) (log s)).
Proof. intro H. apply in_flat_map. exists (TAdded e). split; [exact H|now left]. Qed.
Lemma top_in_place : exists s, in_place tree3 1000 16 65536 s.
Proof.
  observe facts on_top. unfold facts in E. cbn [map] in E.
  injection E as E1 E2 E3 E4 E5 E6 E7 E8 E9 E10 E11 K1 T1 K2 T2 K3 T3 K4 T4 K5 T5 D1 D2 D3 D4 D5 D6 LG.
  exists s. pose proof (reachable_Inv s R) as I.
  assert (L2 : forall e ep c d, d_ctrl (es s e) = Some c -> d_data (es s e) = [d] -> e <> 1 -> e_ref ep = e -> k_st (cs s c) = Connected ->
    k_kind (cs s c) = KSock -> k_kind (cs s d) = KSock -> linked s ep).
  { intros e ep c d X1 X2 X3 X4 X5 X6 X7. unfold linked. rewrite X4, E11. split; [exact X3|]. split; [eauto|].
    intros y Y _. apply (I_bind s I) in Y. unfold conns in Y. rewrite X1, X2 in Y. destruct Y as [<-|[<-|[]]]; now left. }
  constructor; auto.
  - intros e H. apply added_in in H. rewrite LG in H. destruct H as [<-|[<-|[]]]; [rewrite D6|rewrite D3].
    all: unfold good_ep; cbn [e_subs e_id]; split; [repeat constructor; unfold good; cbn; lia|]; split; [repeat constructor|]; eexists; (split; [now left|]); cbn; lia.
  - now left.
  - rewrite E4. discriminate.
  - rewrite E3. discriminate.
  - rewrite E6. lia.
  - intros m w B _ _. rewrite E8, E7. lia.
  - rewrite E7. lia.
  - intros x _. unfold own. rewrite E2. cbn [In area tree3 N.eqb]. change (65536 =? 65536) with true. cbn iota. split.
    + intros (r & [<-|[]] & X). exact X.
    + intro X. eexists. split; [now left|exact X].
  - intros r x. rewrite E10. intros [[= <- <-]|[[= <- <-]|[]]]; cbn [e_id].
    + split; [right; now left|]. split; [reflexivity|]. split; [now apply (L2 2 _ 2 3)|].
      intros y _. unfold covers. cbn. split; [intros (r & [<-|[]] & X); cbn in X; lia|]. intros ->. eexists. split; [now left|]. cbn. lia.
    + split; [right; now right|]. split; [reflexivity|]. split; [now apply (L2 3 _ 4 5)|].
      intros y _. unfold covers. cbn. split; [intros (r & [<-|[]] & X); cbn in X; lia|]. intros ->. eexists. split; [now left|]. cbn. lia.
  - intros j [-> |[-> | ->]]; [discriminate|intros _|intros _]; rewrite E10.
    + do 2 eexists. split; [now left|reflexivity].
    + do 2 eexists. split; [right; now left|reflexivity].
Qed.
Lemma kid_facts i s : reachable s -> i = 65540 \/ i = 65541 -> my_id s = i -> my_subs s = [{| g_prefix := i; g_mask := 0; g_min := i; g_max := i |}] ->
  nst s = NRunning -> self s <> None -> orc s = [] -> x_ttl (cf s) = 16 -> x_msg (cf s) = 262144 -> x_size (cf s) = (fun _ => 40) ->
  parent s = Some (d_ep (es s 2)) -> routes s = [] -> my_ref s = 1 ->
  k_st (cs s 1) = Connected -> k_kind (cs s 1) = KSock -> k_kind (cs s 2) = KSock -> d_ctrl (es s 2) = Some 1 -> d_data (es s 2) = [2] ->
  d_ep (es s 2) = {| e_ref := 2; e_id := 65536; e_subs := [{| g_prefix := 65536; g_mask := 16; g_min := 65536; g_max := 131071 |}] |} ->
  flat_map (fun t => match t with TAdded e => [e] | _ => [] end) (log s) = [2] -> in_place tree3 1000 16 i s.
Proof.
  intros R II E1 E2 E3 E4 E5 E6 E7 E8 E9 E10 E11 K1 T1 T2 D1 D2 D3 LG. constructor; auto.
  - intros e H. apply added_in in H. rewrite LG in H. destruct H as [<-|[]]; rewrite D3.
    unfold good_ep; cbn [e_subs e_id]; split; [repeat constructor; unfold good; cbn; lia|]; split; [repeat constructor|]; eexists; (split; [now left|]); cbn; lia.
  - right. exact II.
  - rewrite E3. discriminate.
  - rewrite E6. lia.
  - intros m w B _ _. rewrite E8, E7. lia.
  - rewrite E7. lia.
  - intros x _. unfold own. rewrite E2. assert (A : area tree3 i x <-> x = i) by (destruct II as [-> | ->]; reflexivity). rewrite A. split.
    + intros (r & [<-|[]] & X). cbn in X. lia.
    + intros ->. eexists. split; [now left|]. cbn. lia.
  - assert (U : up tree3 i = Some 65536) by (destruct II as [-> | ->]; reflexivity). rewrite U, E9, D3.
    eexists. split; [reflexivity|]. split; [reflexivity|]. unfold linked. cbn [e_ref]. rewrite E11. split; [discriminate|]. split; [now exists 1|].
    intros y Y _. apply (I_bind s (reachable_Inv s R)) in Y. unfold conns in Y. rewrite D1, D2 in Y. destruct Y as [<-|[<-|[]]]; now left.
  - intros r x. rewrite E10. intros [].
  - intros j MJ U. exfalso. destruct MJ as [-> |[-> | ->]]; cbn in U; [discriminate|..]; injection U as <-; destruct II; discriminate.
Qed.
Lemma kid1_in_place : exists s, in_place tree3 1000 16 65540 s.
Proof.
  observe facts (below 65540). unfold facts in E. cbn [map] in E.
  injection E as E1 E2 E3 E4 E5 E6 E7 E8 E9 E10 E11 K1 T1 K2 T2 K3 T3 K4 T4 K5 T5 D1 D2 D3 D4 D5 D6 LG.
  exists s. apply kid_facts; auto; [rewrite E4; discriminate|congruence].
Qed.
Lemma kid2_in_place : exists s, in_place tree3 1000 16 65541 s.
Proof.
  observe facts (below 65541). unfold facts in E. cbn [map] in E.
  injection E as E1 E2 E3 E4 E5 E6 E7 E8 E9 E10 E11 K1 T1 K2 T2 K3 T3 K4 T4 K5 T5 D1 D2 D3 D4 D5 D6 LG.
  exists s. apply kid_facts; auto; [rewrite E4; discriminate|congruence].
Qed.
(** The hypotheses of C28 can be met at every node, also by a way over two links. *)
Example C28_case : nested tree3 /\ (forall i, member tree3 i -> exists s, in_place tree3 1000 16 i s) /\ route tree3 65541 65540 2.
Proof.
  split; [exact nested3|]. split; [intros i [-> |[-> | ->]]; [exact top_in_place|exact kid1_in_place|exact kid2_in_place]|].
  apply (Upwards _ _ _ 65536); [cbn; discriminate|reflexivity|].
  apply (Down _ _ _ 65541); [discriminate|right; now right|reflexivity|reflexivity|constructor].
Qed.

Print Assumptions C28_delivery.
Print Assumptions C28_route.
Print Assumptions C28_roomy.
Print Assumptions C28_case.
