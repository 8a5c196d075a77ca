(** Proofs about the way of one data message through a network. *)
From Verif Require Import Base Subnet Route Address NodeTypes NodeConn NodeCore NodeMsg Node
  NodeFrame NodeReset NodeInv NodeKeep NodeSteps NodeReach NodeSpec NodeLog NodeTrace NodeHandle PropNodeMsg NodeCount NetSpec.
Local Open Scope N_scope.
Ltac Zify.zify_post_hook ::= idtac.

Lemma filter_copies l : length (passed_on false l) = length (filter is_copy l).
Proof.
  induction l as [|t l IH]; [reflexivity|]. cbn [passed_on flat_map filter]. fold (passed_on false l).
  destruct t as [c m n z| | | | | | | | | | | | | | | | | | | | | |]; cbn [is_copy app]; trivial.
  destruct (m_body m) as [[] w| | | | | |]; cbn [Bool.eqb andb app]; trivial. destruct (0 <=? z)%Z; cbn [app length]; [now rewrite IH|exact IH].
Qed.
Lemma filter_handed l : length (handed l) = length (filter is_delivery l).
Proof.
  induction l as [|t l IH]; [reflexivity|]. cbn [handed flat_map filter]. fold (handed l).
  destruct t as [|e [c|] m| | | | | | | | | | | | | | | | | | | | |]; cbn [is_delivery app length]; trivial. now rewrite IH.
Qed.
Lemma filter_replies l : map (fun m => h_ret (m_head m)) (replies l) = map ret_of (filter is_response l).
Proof.
  induction l as [|t l IH]; [reflexivity|]. cbn [replies flat_map filter]. fold (replies l).
  destruct t as [c m n z| | | | | | | | | | | | | | | | | | | | | |]; cbn [is_response app]; trivial.
  destruct (m_body m) as [[] w| | | | | |]; cbn [app map ret_of]; trivial. now rewrite IH.
Qed.
(** The way of a request: one message under way or none, and what happened so far. *)
Definition carried (m0 : msg) (n : nat) (m : msg) : Prop :=
  alike m0 m /\ exists w0 w x, m_body m0 = BData false w0 /\ m_body m = BData false w /\ w_router w = w_router w0 ++ x /\ length x = n.
Lemma in_passed_on rsp l m : In m (passed_on rsp l) -> exists c n z w, In (TSend c m n z) l /\ m_body m = BData rsp w.
Proof.
  unfold passed_on. rewrite in_flat_map. intros (t & T & X). destruct t as [c m' n z| | | | | | | | | | | | | | | | | | | | | |]; try contradiction.
  destruct (m_body m') as [b w| | | | | |] eqn:B; try contradiction. destruct (Bool.eqb b rsp && _) eqn:E; [|contradiction].
  apply andb_prop in E as [E _]. apply Bool.eqb_prop in E as ->. destruct X as [<-|[]]. eauto 10.
Qed.
Lemma in_replies l m : In m (replies l) -> exists c n z w, In (TSend c m n z) l /\ m_body m = BData true w.
Proof.
  unfold replies. rewrite in_flat_map. intros (t & T & X). destruct t as [c m' n z| | | | | | | | | | | | | | | | | | | | | |]; try contradiction.
  destruct (m_body m') as [[] w| | | | | |] eqn:B; try contradiction. destruct X as [<-|[]]. eauto 10.
Qed.
Lemma in_handed l m : In m (handed l) -> exists e c, In (TRecv e (Some c) m) l.
Proof.
  unfold handed. rewrite in_flat_map. intros (t & T & X). destruct t as [|e [c|] m'| | | | | | | | | | | | | | | | | | | | |]; try contradiction.
  destruct X as [<-|[]]. eauto.
Qed.
Lemma in_answered l m : In m (answered l) -> exists e c, In (TAnswer e (Some c) m) l.
Proof.
  unfold answered. rewrite in_flat_map. intros (t & T & X). destruct t as [| |e [c|] m'| | | | | | | | | | | | | | | | | | | |]; try contradiction.
  destruct X as [<-|[]]. eauto.
Qed.
Lemma alike_refl m b w : m_body m = BData b w -> alike m m.
Proof. intro B. repeat split. now exists b, w, w. Qed.
Lemma alike_trans m1 m2 m3 : alike m1 m2 -> alike m2 m3 -> alike m1 m3.
Proof.
  intros (A1 & A2 & A3 & A4 & b & w & w' & A5 & A6 & A7 & A8 & A9 & A10) (B1 & B2 & B3 & B4 & b2 & w2 & w3 & B5 & B6 & B7 & B8 & B9 & B10).
  rewrite A6 in B5. injection B5 as <- <-. repeat split; try congruence. exists b, w, w3. repeat split; congruence.
Qed.
Lemma stamp_alike s c m b w : m_body m = BData b w -> alike m (stamp s c m).
Proof.
  intro B. unfold alike. rewrite stamp_body. unfold stamp.
  assert (X : exists b0 w0 w', m_body m = BData b0 w0 /\ m_body m = BData b0 w' /\
    w_from w' = w_from w0 /\ w_to w' = w_to w0 /\ w_content w' = w_content w0 /\ w_flags w' = w_flags w0) by (exists b, w, w; now repeat split).
  destruct (k_bind _); [|now repeat split]. cbv zeta. destruct (_ =? 0); now repeat split.
Qed.
Lemma reply_alike m1 m2 m3 : alike m1 m2 -> reply_to m2 m3 -> reply_to m1 m3.
Proof.
  intros (A1 & A2 & A3 & A4 & b & w & w' & A5 & A6 & A7 & A8 & A9 & A10) (B1 & B2 & B3 & w2 & w3 & B4 & B5 & B6 & B7 & B8 & B9).
  rewrite A6 in B4. injection B4 as -> <-. unfold reply_to. rewrite <- A4. repeat split; try congruence; trivial. exists w, w3. repeat split; congruence.
Qed.
(** One receipt. *)
Lemma receipt s c k m w l : reachable s -> m_body m = BData false w -> log (recv_item c (RMsg k m) s) = l ++ log s ->
  (forall m', In m' (passed_on false l) -> alike m m' /\ (exists w', m_body m' = BData false w' /\ w_router w' = w_router w ++ [my_id s]) /\
     N.of_nat (length (w_router w)) < x_ttl (cf s)) /\
  (forall m', In m' (handed l) -> alike m m' /\ w_to w = my_id s) /\ (forall m', In m' (replies l) -> reply_to m m').
Proof.
  intros R B L. pose proof (recv_effect c k m false w s (reachable_Inv s R) B) as (l' & L' & F).
  rewrite L in L'. apply app_inv_tail in L' as <-. rewrite Forall_forall in F.
  pose proof (stamp_alike s c m _ _ B) as (S1 & S2 & S3 & S4 & _).
  split; [|split].
  - intros m' M. apply in_passed_on in M as (c' & n & z & w' & T & B'). apply F in T. cbn [effect] in T. rewrite B' in T. cbn [Bool.eqb] in T.
    destruct T as (_ & _ & (C1 & C2 & C3 & C4 & C5 & C6 & C7 & C8 & C9) & _ & TT & _). split; [|split; [eauto|now apply TT]].
    unfold alike. repeat split; try congruence. exists false, w, w'. repeat split; trivial.
  - intros m' M. apply in_handed in M as (e & c' & T). apply F in T. cbn [effect] in T. destruct T as (_ & _ & _ & _ & -> & W). split; [|exact W].
    unfold alike. cbn [m_head m_body]. repeat split; trivial. exists false, w, w. now repeat split.
  - intros m' M. apply in_replies in M as (c' & n & z & w' & T & B'). apply F in T. cbn [effect] in T. rewrite B' in T. cbn [Bool.eqb] in T.
    destruct T as (_ & _ & C1 & C2 & C3 & C4 & C5 & C6 & C7). rewrite S4 in C3. rewrite S1 in C1. rewrite S2 in C2.
    unfold reply_to. repeat split; trivial. exists w, w'. repeat split; trivial.
Qed.
(** The counts of one receipt. *)
Inductive counts (s : node) (c : N) (m : msg) (w : fwd) (l : list tr) : Prop :=
| C_nothing : passed_on false l = [] -> handed l = [] -> replies l = [] ->
    (h_ver (m_head m) < ver)%Z \/ is_connected s c = false \/ w_to w <> my_id s -> counts s c m w l
| C_failed m' : passed_on false l = [] -> handed l = [] -> replies l = [m'] -> (h_ret (m_head m') < 0)%Z ->
    (h_ver (m_head m) < ver)%Z \/ w_to w <> my_id s -> counts s c m w l
| C_delivered m' : w_to w = my_id s -> passed_on false l = [] -> handed l = [m'] ->
    replies l = [] \/ (exists m2, replies l = [m2] /\ h_ret (m_head m2) = 0%Z /\ N.testbit (w_flags w) 0 = true) -> counts s c m w l
| C_copied m' : w_to w <> my_id s -> passed_on false l = [m'] -> handed l = [] ->
    replies l = [] \/ (exists m2, replies l = [m2] /\ (0 <= h_ret (m_head m2))%Z /\ N.testbit (w_flags w) 0 = true /\ is_child s (w_to w) = false) -> counts s c m w l.
Lemma len0 {A} (l : list A) : length l = 0%nat -> l = []. Proof. now destruct l. Qed.
Lemma len1 {A} (l : list A) : length l = 1%nat -> exists x, l = [x]. Proof. destruct l as [|x [|]]; try discriminate. now exists x. Qed.
Lemma map0 {A B} (f : A -> B) l : map f l = [] -> l = []. Proof. now destruct l. Qed.
Lemma map1 {A B} (f : A -> B) l z : map f l = [z] -> exists x, l = [x] /\ f x = z.
Proof. destruct l as [|x [|]]; try discriminate. intros [= <-]. now exists x. Qed.
Lemma receipt_counts s c k m w l : reachable s -> m_body m = BData false w -> log (recv_item c (RMsg k m) s) = l ++ log s -> counts s c m w l.
Proof.
  intros R B L. pose proof (recv_outcome c k m w s (reachable_Inv s R) B) as X.
  assert (T : forall a b z, tally s (recv_item c (RMsg k m) s) a b z -> length (passed_on false l) = a /\ length (handed l) = b /\ map (fun m => h_ret (m_head m)) (replies l) = z).
  { intros a b z (l' & L' & T1 & T2 & T3). rewrite L in L'. apply app_inv_tail in L' as <-. now rewrite filter_copies, filter_handed, filter_replies. }
  destruct X as [X Y|code X Y Z|codes X Y Z|codes X Y Z].
  - apply T in X as (X1 & X2 & X3). apply C_nothing; auto using len0. exact (map0 _ _ X3).
  - apply T in Y as (X1 & X2 & X3). apply map1 in X3 as (m' & X3 & X4). apply (C_failed _ _ _ _ _ m'); auto using len0. now rewrite X4.
  - apply T in Y as (X1 & X2 & X3). apply len1 in X2 as (m' & X2). apply (C_delivered _ _ _ _ _ m'); auto using len0.
    destruct Z as [->|[-> Z]]; [left; exact (map0 _ _ X3)|right]. apply map1 in X3 as (m2 & X3 & X4). eauto.
  - apply T in Y as (X1 & X2 & X3). apply len1 in X1 as (m' & X1). apply (C_copied _ _ _ _ _ m'); auto using len0.
    destruct Z as [->|(z & -> & Z1 & Z2 & Z3)]; [left; exact (map0 _ _ X3)|right]. apply map1 in X3 as (m2 & X3 & <-). eauto.
Qed.
(** The whole way. *)
Record way (T : N) (m0 : msg) (w0 : fwd) (fl : list msg) (n : nat) (d r : list msg) : Prop := {
  W_one : fl = [] \/ d = [] /\ exists m, fl = [m] /\ carried m0 n m;
  W_ttl : N.of_nat (n + length (w_router w0)) <= N.max T (N.of_nat (length (w_router w0)));
  W_once : (length d <= 1)%nat;
  W_replies : (length r + length fl <= S n)%nat;
  W_same : Forall (alike m0) d;
  W_back : Forall (reply_to m0) r }.
Lemma one_split {A} (l1 : list A) x l2 m : l1 ++ x :: l2 = [m] -> l1 = [] /\ l2 = [] /\ x = m.
Proof. destruct l1 as [|a [|]]; cbn; try discriminate. intros [= -> ->]. auto. Qed.
Lemma spread_way (P : node -> Prop) T m0 w0 fl n d r : (forall s, P s -> x_ttl (cf s) <= T) -> m_body m0 = BData false w0 -> spread P m0 fl n d r -> way T m0 w0 fl n d r.
Proof.
  intros PT B. induction 1 as [|l1 m l2 n d r S IH|l1 m l2 n d r s c k l S IH R PS L].
  - constructor; cbn [length Nat.add]; auto; [|lia]. right. split; [reflexivity|]. exists m0. split; [reflexivity|]. split; [eapply alike_refl; eassumption|].
    exists w0, w0, []. now rewrite app_nil_r.
  - destruct IH as [W1 W2 W3 W4 W5 W6]. destruct W1 as [W1|(W1 & m' & E & C)]; [now destruct l1|].
    apply one_split in E as (-> & -> & ->). constructor; cbn [app length] in *; auto. lia.
  - destruct IH as [W1 W2 W3 W4 W5 W6]. destruct W1 as [W1|(-> & m' & E & C)]; [now destruct l1|].
    apply one_split in E as (-> & -> & ->). cbn [app length] in *. rewrite !app_nil_r. clear S W3.
    destruct C as (AL & w0' & w & x & B0 & BM & RO & XN). rewrite B in B0. injection B0 as <-.
    pose proof (receipt s c k m' w l R BM L) as (Q1 & Q2 & Q3).
    assert (F6 : Forall (reply_to m0) (replies l ++ r)).
    { apply Forall_app. split; [|exact W6]. rewrite Forall_forall. intros y Y. eapply reply_alike; eauto. }
    assert (F5 : Forall (alike m0) (handed l)).
    { rewrite Forall_forall. intros y Y. destruct (Q2 y Y). eapply alike_trans; eauto. }
    destruct (receipt_counts s c k m' w l R BM L) as [C1 C2 C3 _|m2 C1 C2 C3 _ _|m2 _ C1 C2 C3|m2 _ C1 C2 C3].
    + rewrite C1, C2, C3 in *. constructor; cbn [app length]; auto; [rewrite Nat.add_0_r; exact W2|lia].
    + rewrite C1, C2, C3 in *. constructor; cbn [app length]; auto; [rewrite Nat.add_0_r; exact W2|lia].
    + rewrite C1, C2 in *. constructor; cbn [app length]; auto; [rewrite Nat.add_0_r; exact W2|].
      rewrite app_length. destruct C3 as [->|(y & -> & _)]; cbn [length]; lia.
    + rewrite C1, C2 in *. destruct (Q1 m2 (or_introl eq_refl)) as (A2 & (w2 & B2 & R2) & TT). specialize (PT s PS).
      constructor; cbn [app length]; auto.
      * right. split; [reflexivity|]. exists m2. split; [reflexivity|]. split; [eapply alike_trans; eauto|].
        exists w0, w2, (x ++ [my_id s]). rewrite R2, RO, app_assoc, app_length, XN. now repeat split.
      * rewrite RO, app_length in TT. lia.
      * rewrite app_length. destruct C3 as [->|(y & -> & _)]; cbn [length]; lia.
Qed.

(** ** Responses *)
Lemma rsp_counts s c k m w l : reachable s -> m_body m = BData true w -> log (recv_item c (RMsg k m) s) = l ++ log s ->
  (length (passed_on true l) + length (answered l) <= 1)%nat /\
  (forall m', In m' (passed_on true l) -> alike m m' /\ w_to w <> my_id s) /\ (forall m', In m' (answered l) -> alike m m' /\ w_to w = my_id s).
Proof.
  intros R B L. split.
  2: { pose proof (recv_effect c k m true w s (reachable_Inv s R) B) as (l' & L' & F).
    rewrite L in L'. apply app_inv_tail in L' as <-. rewrite Forall_forall in F.
    pose proof (stamp_alike s c m _ _ B) as (S1 & S2 & S3 & S4 & _). split.
    - intros m' M. apply in_passed_on in M as (c' & n & z & w' & T & B'). apply F in T. cbn [effect] in T. rewrite B' in T. cbn [Bool.eqb] in T.
      destruct T as (_ & _ & (C1 & C2 & C3 & C4 & C5 & C6 & C7 & C8 & C9) & WT & _). split; [|exact WT].
      unfold alike. repeat split; try congruence. exists true, w, w'. repeat split; trivial.
    - intros m' M. apply in_answered in M as (e & c' & T). apply F in T. cbn [effect] in T. destruct T as (_ & _ & _ & _ & -> & W). split; [|exact W].
      unfold alike. cbn [m_head m_body]. repeat split; trivial. exists true, w, w. now repeat split. }
  revert L. cbn [recv_item]. cbv zeta. rewrite stamp_pull, on_recv_eq. set (s1 := on_c c _ s). intro L.
  assert (ORD : forall la, Forall ordinary la -> passed_on true la = [] /\ answered la = []).
  { induction la as [|t la IH]; [now split|]. intro F. inversion_clear F as [|? ? F1 F2]. destruct (IH F2) as [I1 I2].
    unfold passed_on, answered in *. cbn [flat_map]. rewrite I1, I2. destruct t as [c' m' n z|e [c'|] m'|e [c'|] m'| | | | | | | | | | | | | | | | | | | |]; try now split.
    cbn in F1. unfold is_data in F1. destruct (m_body m'); now split. }
  pose proof (qt_after c (dispatch_msg c (stamp s c m) s1)) as (la & LA & FA). destruct (ORD la FA) as [OA1 OA2].
  assert (DD : exists t, log (fst (dispatch_msg c (stamp s c m) s1)) = t ++ log s /\ (length t <= 1)%nat).
  { change (log s) with (log s1). unfold dispatch_msg. rewrite stamp_body, B. cbv zeta. unfold data_rsp.
    destruct (negb _); [exists []; auto|]. destruct (_ =? _); [eexists [_]; split; [reflexivity|auto]|].
    unfold forward. destruct (_ =? 0); [exists []; auto|]. destruct (_ =? _); [exists []; auto|].
    destruct (remote true s1 (w_to w)) as [[r oe] oc]. destruct oe as [e|]; [|exists []; auto]. destruct oc as [c'|]; [|exists []; auto].
    destruct (_ && _); [exists []; auto|]. cbv zeta.
    match goal with |- context [send_on c' ?m2 s1] => pose proof (send_on_log c' m2 s1) as SO; destruct (send_on c' m2 s1) as [s2 z2] end.
    cbn [fst snd] in *. destruct SO as [[_ X]|[n X]]; rewrite X; [exists []; auto|eexists [_]; split; [reflexivity|auto]]. }
  destruct DD as (t & TL & TN). rewrite LA, TL, app_assoc in L. apply app_inv_tail in L as <-.
  unfold passed_on, answered in *. rewrite !flat_map_app, OA1, OA2. cbn [app].
  destruct t as [|t [|]]; cbn [length flat_map] in *; try lia. rewrite !app_nil_r.
  destruct t as [c' m' n z|e [c'|] m'|e [c'|] m'| | | | | | | | | | | | | | | | | | | |]; cbn [length]; try lia.
  destruct (m_body m'); cbn [length]; try lia. destruct (_ && _); cbn [length]; lia.
Qed.
Lemma return_once (P : node -> Prop) m0 w0 fl n d : m_body m0 = BData true w0 -> return_way P m0 fl n d ->
  (length fl + length d <= 1)%nat /\ Forall (alike m0) fl /\ Forall (alike m0) d.
Proof.
  intros B. induction 1 as [|l1 m l2 n d S IH|l1 m l2 n d s c k l S IH R PS L].
  - repeat split; auto. constructor; auto. eapply alike_refl; eassumption.
  - destruct IH as (IH1 & IH2 & IH3). rewrite !app_length in *. cbn [length] in *. split; [lia|]. split; [|exact IH3].
    apply Forall_app in IH2 as [A C]. apply Forall_app. inversion_clear C. now split.
  - destruct IH as (IH1 & IH2 & IH3). rewrite app_length in IH1. cbn [length] in IH1.
    assert (l1 = [] /\ l2 = [] /\ d = []) as (-> & -> & ->) by (repeat split; apply len0; lia).
    cbn [app] in *. rewrite !app_nil_r. inversion_clear IH2 as [|? ? A _].
    pose proof A as (_ & _ & _ & _ & b & w & w' & E1 & E2 & _). rewrite B in E1. injection E1 as <- <-.
    destruct (rsp_counts s c k m w' l R E2 L) as (C1 & C2 & C3). split; [exact C1|].
    split; rewrite Forall_forall; intros y Y; [destruct (C2 y Y)|destruct (C3 y Y)]; eapply alike_trans; eauto.
Qed.
