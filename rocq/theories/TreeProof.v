(** Proofs about trees of nodes. *)
From Verif Require Import Base Subnet Route RouteProof Address NodeTypes NodeConn NodeCore NodeMsg Node
  NodeFrame NodeReset NodeInv NodeKeep NodeSteps NodeReach NodeSpec NodeLog NodeNotice NodeRoute NodeTrace NodeHandle NodeAuth PropNodeMsg NodeCount
  NetSpec NetProof PropNet TreeSpec.
Local Open Scope N_scope.
Ltac Zify.zify_post_hook ::= idtac.

(** ** Ancestors *)
Inductive above (t : tree) : N -> N -> nat -> Prop :=
| A_self i : above t i i 0
| A_up i j p n : member t j -> up t j = Some p -> above t i p n -> above t i j (S n).
Lemma above_member t i j n : nested t -> member t j -> above t i j n -> member t i.
Proof. intros W M A. induction A as [|i j p n MJ U A IH]; [exact M|]. apply IH. eapply T_up; eauto. Qed.
Lemma above_area t i j n x : nested t -> above t i j n -> area t j x -> area t i x.
Proof. intros W A. induction A as [|i j p n MJ U A IH]; [trivial|]. intro X. apply IH. eapply T_nest; eauto. Qed.
Lemma above_trans t i j k n m : above t i j n -> above t j k m -> above t i k (m + n).
Proof. intros A B. induction B as [|j k p m MJ U B IH]; [exact A|]. cbn [Nat.add]. eapply A_up; eauto. Qed.
(** The last step of a chain, seen from above. *)
Lemma above_last t i j n : above t i j (S n) -> exists k, member t k /\ up t k = Some i /\ above t k j n.
Proof.
  revert j. induction n as [|n IH]; intros j A; inversion A as [|i' j' p n' MJ U A']; subst.
  - inversion A'; subst. exists j. repeat split; trivial. constructor.
  - destruct (IH p A') as (k & K1 & K2 & K3). exists k. repeat split; trivial. eapply A_up; eauto.
Qed.
(** Every member is below the root. *)
Lemma root_above t : nested t -> exists r, forall i, member t i -> exists n, above t r i n.
Proof.
  intro W. destruct (T_root t W) as (r & RT). destruct (T_depth t W) as (d & D). exists r.
  assert (X : forall k i, (d i < k)%nat -> member t i -> exists n, above t r i n).
  { induction k as [|k IH]; intros i L M; [lia|]. destruct (up t i) as [p|] eqn:U.
    - destruct (IH p) as (n & A); [specialize (D i p M U); lia|eapply T_up; eauto|]. exists (S n). eapply A_up; eauto.
    - rewrite (RT i M U). exists 0%nat. constructor. }
  intros i M. apply (X (S (d i))); auto.
Qed.
Lemma not_above_self t i n : nested t -> above t i i n -> n = 0%nat.
Proof.
  intros W A. destruct (T_depth t W) as (d & D).
  assert (X : forall i j k, above t i j k -> (d i + k <= d j)%nat).
  { clear - D. intros i j k A. induction A as [|i j p n MJ U A IH]; [lia|]. specialize (D j p MJ U). lia. }
  specialize (X _ _ _ A). lia.
Qed.
(** A member is responsible for exactly the members below it. *)
Lemma area_above t i a : nested t -> member t i -> member t a -> (area t i a <-> exists n, above t i a n).
Proof.
  intros W MI MA. split.
  - intro AR. destruct (root_above t W) as (r & RA). destruct (RA i MI) as (ni & AI). destruct (RA a MA) as (na & AA).
    (* walk down from the root as long as both chains agree *)
    assert (X : forall ni na r, above t r i ni -> above t r a na -> exists n, above t i a n).
    { clear r RA ni na AI AA. induction ni as [|ni IH]; intros na r AI AA.
      - inversion AI; subst. eauto.
      - destruct na as [|na].
        + exfalso. inversion AA; subst. destruct (above_last _ _ _ _ AI) as (k & MK & UK & AK).
          apply (T_above t W k a MK UK). eapply above_area; eauto.
        + destruct (above_last _ _ _ _ AI) as (k & MK & UK & AK). destruct (above_last _ _ _ _ AA) as (k' & MK' & UK' & AK').
          assert (k = k').
          { apply (T_apart t W k k' r a MK MK' UK UK'); [eapply above_area; eauto|]. eapply above_area; [exact W|exact AK'|]. now apply T_self. }
          subst k'. eapply IH; eauto. }
    eauto.
  - intros (n & A). eapply above_area; [exact W|exact A|]. now apply T_self.
Qed.
(** Whether a node is above another one can be found by climbing. *)
Lemma above_dec t i a : nested t -> member t a -> (exists n, above t i a n) \/ ~ (exists n, above t i a n).
Proof.
  intros W MA. destruct (T_depth t W) as (d & D).
  assert (X : forall k a, (d a < k)%nat -> member t a -> (exists n, above t i a n) \/ ~ (exists n, above t i a n)).
  { clear a MA. induction k as [|k IH]; intros a L M; [lia|]. destruct (N.eq_dec i a) as [->|NE]; [left; exists 0%nat; constructor|].
    destruct (up t a) as [p|] eqn:U.
    - destruct (IH p) as [(n & A)|NA]; [specialize (D a p M U); lia|eapply T_up; eauto|left; exists (S n); eapply A_up; eauto|].
      right. intros (n & A). apply NA. inversion A as [|? ? p' n' MJ U' A']; subst; [congruence|]. rewrite U in U'. injection U' as <-. eauto.
    - right. intros (n & A). inversion A; subst; congruence. }
  apply (X (S (d a))); auto.
Qed.
(** Between any two nodes there is a way. *)
Theorem route_exists t a i : nested t -> member t a -> member t i -> exists n, route t a i n.
Proof.
  intros W MA MI. destruct (T_depth t W) as (d & D).
  assert (DN : forall n i, above t i a n -> route t a i n).
  { clear - W MA. induction n as [|n IH]; intros i A; [inversion A; subst; constructor|].
    destruct (above_last _ _ _ _ A) as (k & MK & UK & AK). apply (Down t a i k); auto.
    - intros ->. apply not_above_self in A; [discriminate|exact W].
    - eapply above_area; [exact W|exact AK|]. now apply T_self. }
  assert (X : forall k i, (d i < k)%nat -> member t i -> exists n, route t a i n).
  { induction k as [|k IH]; intros j L M; [lia|]. destruct (above_dec t j a W MA) as [(n & A)|NA]; [eauto|].
    destruct (up t j) as [p|] eqn:U.
    - destruct (IH p) as (n & RO); [specialize (D j p M U); lia|eapply T_up; eauto|]. exists (S n). apply (Upwards t a j p); auto.
      intro AR. apply NA. now apply area_above.
    - exfalso. apply NA. destruct (root_above t W) as (r & RA). destruct (T_root t W) as (r' & RT).
      destruct (RA j M) as (x & A). inversion A as [|? ? p n' MJ U' A']; subst; [now apply RA|congruence]. }
  apply (X (S (d i))); auto.
Qed.
Lemma step_differs t i j : nested t -> member t j -> up t j = Some i -> j <> i.
Proof. intros W M U ->. destruct (T_depth t W) as (d & D). specialize (D i i M U). lia. Qed.

(** ** The next hop of a node in its place *)
Lemma hop_in_tree t M T i s a hop : nested t -> in_place t M T i s -> member t a -> a <> i -> next s a hop ->
  exists x, hop = Some x /\ linked s x /\ member t (e_id x) /\
    ((up t (e_id x) = Some i /\ area t (e_id x) a) \/ (up t i = Some (e_id x) /\ ~ area t i a)).
Proof.
  intros W P MA NE NX. assert (A0 : a <> 0) by (intros ->; now apply (T_zero t W)).
  assert (PA : forall p, parent s = Some p -> up t i = Some (e_id p) /\ linked s p /\ member t (e_id p)).
  { intros p PP. pose proof (P_parent t M T i s P) as X. destruct (up t i) as [q|] eqn:U.
    - destruct X as (x & X1 & X2 & X3). rewrite PP in X1. injection X1 as <-. subst q. repeat split; trivial; try apply X3.
      exact (T_up t W i (e_id p) (P_member t M T i s P) U).
    - congruence. }
  assert (CHILD : area t i a -> exists q, In q (routes s) /\ covers (snd q) a).
  { intro AR. apply area_above in AR as (n & AB); [|exact W|exact (P_member t M T i s P)|exact MA].
    destruct n as [|n]; [inversion AB; congruence|]. destruct (above_last _ _ _ _ AB) as (k & MK & UK & AK).
    destruct (P_children t M T i s P k MK UK) as (r & x & RX & <-). exists (r, x). split; [exact RX|]. cbn [snd].
    apply (P_child t M T i s P r x RX); [exact A0|]. apply area_above; eauto. }
  destruct NX as [p PP E|r x NP RX C|p PP E NC NO|NP NC X].
  - exists p. destruct (PA p PP) as (U & L & MP). split; [reflexivity|]. split; [exact L|]. split; [exact MP|]. right. split; [exact U|].
    rewrite <- E. apply (T_above t W i (e_id p)); [exact (P_member t M T i s P)|exact U].
  - exists x. destruct (P_child t M T i s P r x RX) as (MX & UX & L & CX). split; [reflexivity|]. split; [exact L|]. split; [exact MX|]. left. split; [exact UX|]. now apply CX.
  - exists p. destruct (PA p PP) as (U & L & MP). split; [reflexivity|]. split; [exact L|]. split; [exact MP|]. right. split; [exact U|].
    intro AR. apply NO. now apply (P_own t M T i s P).
  - exfalso. assert (AR : area t i a).
    { destruct X as [O|PN]; [now apply (P_own t M T i s P)|]. apply area_above; [exact W|exact (P_member t M T i s P)|exact MA|].
      destruct (root_above t W) as (r & RA). assert (UN : up t i = None).
      { pose proof (P_parent t M T i s P) as Y. destruct (up t i); [destruct Y as (y & Y & _); congruence|reflexivity]. }
      destruct (RA i (P_member t M T i s P)) as (n & A). inversion A as [|? ? p n' MJ U' A']; subst; [now apply RA|congruence]. }
    destruct (CHILD AR) as (q & Q & C). exact (NC q Q C).
Qed.
Lemma linked_pick s x : linked s x -> pick true s x <> None.
Proof.
  intros (NE & (c & C & ST) & _). unfold pick, data_conn. apply N.eqb_neq in NE. rewrite NE. destruct (find _ _); [discriminate|].
  unfold ctrl_conn. rewrite NE, C. unfold is_connected. now rewrite ST.
Qed.
Lemma route_step t a i n : nested t -> member t i -> member t a -> i <> a -> route t a i n ->
  exists k j, n = S k /\ route t a j k /\ ((member t j /\ up t j = Some i /\ area t j a) \/ (up t i = Some j /\ ~ area t i a)).
Proof.
  intros W MI MA NE R. destruct R as [|i j n N MJ U A R|i p n N U R]; [congruence|exists n, j; auto 10|exists n, p; auto 10].
Qed.
(** The hop the node chooses is the next step of the way. *)
Lemma remote_in_tree t M T i s a n : nested t -> in_place t M T i s -> member t a -> a <> i -> route t a i (S n) ->
  exists x c, remote true s a = (E_OK, Some x, Some c) /\ k_bind (cs s c) = Some (e_ref x) /\ d_ep (es s (e_ref x)) = x /\
    k_st (cs s c) = Connected /\ (k_kind (cs s c) = KSock \/ k_kind (cs s c) = KSend) /\ route t a (e_id x) n /\ member t (e_id x) /\
    ((up t (e_id x) = Some i /\ area t (e_id x) a) \/ (up t i = Some (e_id x) /\ ~ area t i a)).
Proof.
  intros W P MA NE RO. assert (A0 : a <> 0) by (intros ->; now apply (T_zero t W)).
  destruct (remote_next s a (P_reach _ _ _ _ _ P) (P_settled _ _ _ _ _ P) (P_live _ _ _ _ _ P) (P_self _ _ _ _ _ P) A0) as (hop & NX & H);
    [now rewrite (P_id _ _ _ _ _ P)|].
  destruct (hop_in_tree t M T i s a hop W P MA NE NX) as (x & -> & L & MX & ST).
  destruct H as [H|(c & H & B & CN)].
  - exfalso. apply (linked_pick s x L). unfold remote in H. destruct (self s); [|discriminate].
    destruct (nst s) eqn:NS; [now elim (P_live _ _ _ _ _ P)|..].
    all: destruct (_ =? _); [discriminate|]; destruct (next_hop s a) as [y|]; [|discriminate]; destruct (pick true s y) eqn:PK; [discriminate|]; congruence.
  - destruct (remote_some true s a _ _ _ (reachable_Inv s (P_reach _ _ _ _ _ P)) H) as (_ & _ & _ & _ & DE & _).
    exists x, c. repeat split; trivial; [now apply L|].
    destruct (route_step t a i (S n) W (P_member _ _ _ _ _ P) MA ltac:(congruence) RO) as (k & j & E & RJ & D). injection E as <-.
    assert (j = e_id x) as <-; [|exact RJ].
    destruct ST as [[U1 A1]|[U1 A1]], D as [(MJ & U2 & A2)|[U2 A2]].
    + now apply (T_apart t W j (e_id x) i a).
    + exfalso. apply A2. eapply T_nest; eauto.
    + exfalso. apply A1. eapply T_nest; eauto.
    + congruence.
Qed.

(** ** One forward *)
Lemma push_taken c m s : x_size (cf s) m <= x_msg (cf s) + 1024 -> k_st (cs s c) = Connected -> k_kind (cs s c) = KSock \/ k_kind (cs s c) = KSend -> orc s = [] ->
  log (fst (send_on c m s)) = TSend c m (x_size (cf s) m) 0 :: log s /\ snd (send_on c m s) = 0%Z.
Proof.
  intros SZ ST K O. unfold send_on. apply N.ltb_ge in SZ. rewrite SZ. unfold push. cbv zeta. set (s1 := on_c c _ s).
  assert (E1 : k_st (cs s1 c) = Connected) by (unfold s1, on_c, upd; cbn [cs set_cs]; now rewrite N.eqb_refl).
  assert (E2 : k_kind (cs s1 c) = k_kind (cs s c)) by (unfold s1, on_c, upd; cbn [cs set_cs]; now rewrite N.eqb_refl).
  rewrite E1, E2. assert (O1 : orc s1 = []) by exact O. destruct K as [-> | ->]; unfold take_orc; rewrite O1; split; reflexivity.
Qed.
Lemma remote_pull c n s a : remote true (on_c c (fun k => set_k_pull (bump (k_pull k) n) k) s) a = remote true s a.
Proof.
  set (s1 := on_c c _ s).
  assert (F : forall x, k_st (cs s1 x) = k_st (cs s x) /\ k_sa (cs s1 x) = k_sa (cs s x) /\ k_sh (cs s1 x) = k_sh (cs s x))
    by (intro x; unfold s1, on_c, upd; cbn [cs set_cs]; destruct (N.eqb_spec x c) as [->|]; now repeat split).
  assert (SC : forall x, score s1 x = score s x) by (intro x; destruct (F x) as (_ & F1 & F2); unfold score; now rewrite F1, F2).
  assert (A : forall x l, ins_conn s1 x l = ins_conn s x l) by (intros x l; induction l as [|y l IH]; [reflexivity|cbn [ins_conn]; now rewrite IH, !SC]).
  assert (B : forall l, sort_conns s1 l = sort_conns s l)
    by (intro l; unfold sort_conns; induction l as [|x l IH]; [reflexivity|cbn [fold_right]; now rewrite IH, A]).
  assert (CN : forall x, is_connected s1 x = is_connected s x) by (intro x; destruct (F x) as (F1 & _); unfold is_connected; now rewrite F1).
  assert (U : forall e x, usable s1 e x = usable s e x) by (intros e x; destruct (F x) as (_ & F1 & F2); unfold usable; now rewrite CN, F1, F2).
  assert (FI : forall e l, find (usable s1 e) l = find (usable s e) l) by (intros e l; induction l as [|x l IH]; [reflexivity|cbn [find]; now rewrite U, IH]).
  assert (P : forall e, pick true s1 e = pick true s e).
  { intro e. unfold pick, data_conn. change (my_ref s1) with (my_ref s). change (es s1) with (es s). rewrite B, FI.
    unfold ctrl_conn. change (my_ref s1) with (my_ref s). change (es s1) with (es s). destruct (_ =? _); [reflexivity|]. destruct (find _ _); [reflexivity|].
    destruct (d_ctrl _); [now rewrite CN|reflexivity]. }
  unfold remote. change (self s1) with (self s). destruct (self s) as [se|]; [|reflexivity]. change (nst s1) with (nst s).
  change (my_id s1) with (my_id s). change (next_hop s1 a) with (next_hop s a). change (is_child s1 a) with (is_child s a). change (routes s1) with (routes s).
  destruct (next_hop s a) as [e|]; [now rewrite P|reflexivity].
Qed.
Lemma gained_trans s s1 s2 t P : gained s s1 t -> adds P s1 s2 -> gained s s2 t.
Proof. intros (l & L & I) (l' & L' & _). exists (l' ++ l). split; [rewrite L', L; apply app_assoc|]. apply in_app_iff. now right. Qed.
(** A request that can be forwarded is. *)
Lemma forwards s c k m w x c' : reachable s -> m_body m = BData false w -> (ver <= h_ver (m_head m))%Z -> k_st (cs s c) = Connected ->
  w_to w <> my_id s -> w_to w <> 0 -> N.of_nat (length (w_router w)) < x_ttl (cf s) ->
  remote true s (w_to w) = (E_OK, Some x, Some c') -> k_kind (cs s c') = KSock \/ k_kind (cs s c') = KSend -> orc s = [] ->
  h_src (m_head (stamp s c m)) <> e_id x ->
  (forall m', m_body m' = BData false (add_router w (my_id s)) -> x_size (cf s) m' <= x_msg (cf s) + 1024) ->
  exists m' n, gained s (recv_item c (RMsg k m) s) (TSend c' m' n 0) /\ m_body m' = BData false (add_router w (my_id s)).
Proof.
  intros R B V CN TM T0 TTL RM K O SRC SZ. pose proof (reachable_Inv s R) as I.
  destruct (remote_some true s _ _ _ _ I RM) as (_ & _ & _ & _ & _ & CN' & _).
  cbn [recv_item]. cbv zeta. rewrite stamp_pull, on_recv_eq. set (s1 := on_c c _ s).
  pose proof (level_pull c k s) as L1. fold s1 in L1. pose proof (Inv_pull c k s I) as I1. fold s1 in I1.
  assert (G : exists m' n, gained s1 (fst (dispatch_msg c (stamp s c m) s1)) (TSend c' m' n 0) /\ m_body m' = BData false (add_router w (my_id s))).
  { unfold dispatch_msg. rewrite stamp_body, B. set (h := m_head (stamp s c m)) in *. unfold data_req.
    assert (VH : (h_ver h <? ver)%Z = false).
    { apply Z.ltb_ge. unfold h. destruct (stamp_alike s c m _ _ B) as (HV & _). now rewrite HV. }
    assert (IC : is_connected s1 c = true) by (unfold is_connected; now rewrite (L_st _ _ L1), CN).
    assert (MY : my_id s1 = my_id s) by now apply level_my.
    rewrite VH, IC, MY, (L_cf _ _ L1). cbn [negb]. apply N.eqb_neq in TM as TM1. rewrite TM1. apply N.leb_gt in TTL. rewrite TTL. cbv zeta.
    assert (F : forward false h (add_router w (my_id s)) (h_src h) (w_to w) s1 =
      (let h' := set_ret_src (h_ret h) (my_id s) h in let (s2, r) := send_on c' {| m_head := h'; m_body := BData false (add_router w (my_id s)) |} s1 in (s2, r, Some x, h'))).
    { unfold forward. apply N.eqb_neq in T0 as T1. rewrite T1, MY. rewrite (N.eqb_sym (my_id s)), TM1.
      unfold s1. rewrite remote_pull, RM. assert (SX : (e_id x =? h_src h) = false) by (apply N.eqb_neq; congruence). rewrite SX, andb_false_r. reflexivity. }
    change (w_to (add_router w (my_id s))) with (w_to w). rewrite F. cbv zeta. clear F.
    set (m1 := {| m_head := set_ret_src _ _ _; m_body := _ |}).
    destruct (push_taken c' m1 s1) as [LG RZ].
    { rewrite (L_cf _ _ L1). now apply SZ. } { now rewrite (L_st _ _ L1). } { now rewrite (L_kind _ _ L1). } { exact O. }
    pose proof (level_send_on c' m1 s1) as L2.
    assert (I2 : Inv (fst (send_on c' m1 s1))) by (eapply (steps_Inv true); [apply st_send_on|exact I1]).
    destruct (send_on c' m1 s1) as [s2 r]. cbn [fst snd] in *. subst r.
    exists m1, (x_size (cf s1) m1). split; [|reflexivity].
    assert (G2 : gained s1 s2 (TSend c' m1 (x_size (cf s1) m1) 0)) by (exists [TSend c' m1 (x_size (cf s1) m1) 0]; split; [exact LG|now left]).
    change (0 <=? 0)%Z with true. cbn [andb]. destruct (is_child s2 (w_to w)).
    - destruct (_ && _ && _); [|exact G2]. eapply gained_trans; [exact G2|]. now apply sync_quiet.
    - change (0 <? 0)%Z with false. cbn [andb orb]. destruct (N.testbit _ _); [|exact G2].
      match goal with |- context [transfer_rsp ?h2 ?w2 ?z ?y] => destruct (rsp_tally h2 w2 z y I2) as [(l & L & _)|(l & L & _)] end.
      all: eapply (gained_trans _ _ _ _ (fun _ => True)); [exact G2|]; exists l; split; [exact L|]; apply Forall_forall; trivial. }
  destruct G as (m' & n & G & BM). exists m', n. split; [|exact BM].
  eapply gained_trans; [exact G|]. apply qt_after.
Qed.
