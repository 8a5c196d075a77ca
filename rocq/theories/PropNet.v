(** Data messages in a network: C26 and C44. *)
From Verif Require Import Base Subnet Route RouteProof Address NodeTypes NodeConn NodeCore NodeMsg Node
  NodeFrame NodeReset NodeInv NodeKeep NodeSteps NodeReach NodeSpec NodeLog NodeNotice NodeRoute NodeTrace NodeHandle NodeAuth PropNodeMsg NodeCount
  NetSpec NetProof NodeExample.
Local Open Scope N_scope.
Ltac Zify.zify_post_hook ::= idtac.

(** ** C26 *)
(** A request that already names [k] nodes is forwarded at most [ttl - k] times, there
    is never more than one copy of it, and it is never handed to more than one receive
    callback: in every network, at any nodes, in any of their states. *)
Theorem C26_requests T m0 w0 fl n d r : m_body m0 = BData false w0 -> spread (fun s => x_ttl (cf s) <= T) m0 fl n d r ->
  N.of_nat (n + length (w_router w0)) <= N.max T (N.of_nat (length (w_router w0))) /\
  (length fl + length d <= 1)%nat /\ (length r <= S n)%nat /\
  Forall (alike m0) (fl ++ d) /\ Forall (reply_to m0) r.
Proof.
  intros B S. pose proof (spread_way _ T m0 w0 fl n d r (fun s H => H) B S) as [W1 W2 W3 W4 W5 W6].
  split; [exact W2|]. split; [destruct W1 as [->|(-> & m & -> & _)]; cbn [length]; lia|]. split; [lia|].
  split; [|exact W6]. apply Forall_app. split; [|exact W5].
  destruct W1 as [->|(_ & m & -> & A & _)]; auto.
Qed.
(** Whatever [send_data] puts on a connection starts with one name in its list and holds
    the given bytes, at most [msg_size] of them. *)
Lemma sent_router s to ty b want q c m k z : reachable s -> gained s (fst (send_data to ty b want q s)) (TSend c m k z) ->
  forall rsp w, m_body m = BData rsp w -> rsp = false /\ w_router w = [my_id s] /\ w_content w = b /\ N.of_nat (length b) <= x_msg (cf s).
Proof.
  intros R G rsp w B. pose proof (reachable_Inv s R) as I.
  set (P := fun t => match t with TSend _ m _ _ => forall rsp w, m_body m = BData rsp w -> rsp = false /\ w_router w = [my_id s] /\ w_content w = b /\ N.of_nat (length b) <= x_msg (cf s) | _ => True end).
  assert (A : adds P s (fst (send_data to ty b want q s))).
  { assert (IP : forall t, inner t -> P t).
    { intros t. destruct t as [c' m' n' z'| | | | | | | | | | | | | | | | | | | | | |]; cbn; trivial. unfold is_data. intros D rsp' w' B'. now rewrite B' in D. }
    unfold send_data. destruct (nst s); [apply adds_refl|..]. all: destruct (N.ltb_spec (x_msg (cf s)) (N.of_nat (length b))) as [LT|LE]; [apply adds_refl|].
    all: destruct (q =? 0).
    all: try (apply send_to_adds; [exact I|exact IP|]; intros e c' q' z' _ rsp' w' B'; destruct (_ =? 0); cbn in B'; injection B' as <- <-; auto).
    all: unfold alloc_seq; cbv zeta; set (v := if _ =? 0 then 1 else _); clearbody v.
    all: eapply adds_trans; [apply (adds_same P s (set_seqn v s)); reflexivity|].
    all: apply send_to_adds; [eapply (steps_Inv true); [apply st_seqn|exact I]|exact IP|].
    all: intros e c' q' z' _ rsp' w' B'; destruct (_ =? 0); cbn in B'; injection B' as <- <-; auto. }
  exact (adds_gained _ _ _ _ A G rsp w B).
Qed.
(** So a message that [send_data] sent is forwarded less than [ttl] times. *)
Theorem C26_sent T s to ty b want q c m0 k z fl n d r rsp w : reachable s -> gained s (fst (send_data to ty b want q s)) (TSend c m0 k z) ->
  m_body m0 = BData rsp w -> spread (fun s => x_ttl (cf s) <= T) m0 fl n d r -> n = 0%nat \/ N.of_nat n < T.
Proof.
  intros R G B S. destruct (sent_router _ _ _ _ _ _ _ _ _ _ R G _ _ B) as (-> & RO & _).
  destruct (C26_requests T m0 w fl n d r B S) as [X _]. rewrite RO in X. cbn [length] in X. lia.
Qed.
(** For the examples: one more receipt, with what it added computed. *)
Lemma one_receipt (P : node -> Prop) m0 m n d r s c k l fl n' d' r' : spread P m0 [m] n d r -> reachable s -> P s ->
  log (recv_item c (RMsg k m) s) = l ++ log s -> passed_on false l = fl -> (n + length fl)%nat = n' -> handed l ++ d = d' -> replies l ++ r = r' ->
  spread P m0 fl n' d' r'.
Proof.
  intros S R Q L <- <- <- <-. pose proof (S_received P m0 [] m [] n d r s c k l S R Q L) as X. cbn [app] in X. now rewrite app_nil_r in X.
Qed.
Ltac added E1 E2 := match type of E1 with log ?s = ?a => match type of E2 with _ = ?b =>
  let n := eval vm_compute in (length b - length a)%nat in
  let l := eval cbv [firstn] in (firstn n b) in etransitivity; [exact E2|rewrite E1; exact (eq_refl : b = l ++ a)] end end.
(** Node 65536 passes a request from 65540 to 65541 on. *)
Example C26_case : exists m, spread (fun s => x_ttl (cf s) <= 16) (msg0 1 (BData false (data0 65540 65541 [65540]))) [m] 1 [] [] /\
  m_body m = BData false (data0 65540 65541 [65540; 65536]).
Proof.
  observe (fun s => (x_ttl (cf s), log s, log (recv_item 2 (RMsg 40 (msg0 1 (BData false (data0 65540 65541 [65540])))) s)))
    (boot 65540 [] ++ [EIo (IAccepted adr2); EIo (IRecv 4 (RMsg 10 (msg0 65541 (BReg false (reg0 65541 [])))))]).
  pose proof (f_equal fst (f_equal fst E)) as E1. pose proof (f_equal snd (f_equal fst E)) as E2. pose proof (f_equal snd E) as E3. cbn [fst snd] in E1, E2, E3.
  eexists. split.
  - eapply (one_receipt _ _ _ 0 [] [] s 2 40); [apply S_sent|exact R|rewrite E1; discriminate|added E2 E3|reflexivity..].
  - reflexivity.
Qed.
(** Responses carry no such limit.  Two nodes that both say they are responsible for the
    ids 327680-393215 and that reach each other through shared memory pass a response to
    a missing node in that range on to each other, for any number of times. *)
Definition set_nets nets x :=
  {| x_nets := nets; x_parent := x_parent x; x_loop := x_loop x; x_ttl := x_ttl x; x_ping := x_ping x; x_retry := x_retry x;
     x_first := x_first x; x_tol := x_tol x; x_backlog := x_backlog x; x_msg := x_msg x; x_tokens := x_tokens x;
     x_pid := x_pid x; x_host := x_host x; x_mac := x_mac x; x_size := x_size x; x_cmd := x_cmd x; x_reply := x_reply x |}.
Definition claims (i : N) := [{|c_prefix:=i;c_mask:=16|};{|c_prefix:=327680;c_mask:=16|}].
Definition adr_shm2 : bytes := [115;104;109;58;47;47;48;120;49;49].
Definition local_reg id := {| r_id := id; r_pid := 7; r_host := [1]; r_chans := [adr_shm2]; r_keys := []; r_nets := claims id |}.
(** Connection 1 is the shared memory channel the node reads, connection 4 the one it
    writes to its peer. *)
Definition twin (id peer : N) := [EInit id (set_nets (claims id) cfg0); EStart 100; EListen adr_shm; EListen adr; EIo (IAccepted adr2);
  EIo (IRecv 3 (RMsg 10 (msg0 peer (BReg false (local_reg peer)))))].
Definition stray (src : N) := msg0 src (BData true (data0 65536 327690 [])).
Lemma one_return (P : node -> Prop) m0 m n d s c k l fl n' d' : return_way P m0 [m] n d -> reachable s -> P s ->
  log (recv_item c (RMsg k m) s) = l ++ log s -> passed_on true l = fl -> (n + length fl)%nat = n' -> answered l ++ d = d' ->
  return_way P m0 fl n' d'.
Proof.
  intros S R Q L <- <- <-. pose proof (R_received P m0 [] m [] n d s c k l S R Q L) as X. cbn [app] in X. now rewrite app_nil_r in X.
Qed.
Theorem C26_responses_refuted : exists sA sB m0 w0, m_body m0 = BData true w0 /\ reachable sA /\ reachable sB /\ x_ttl (cf sA) = 16 /\ x_ttl (cf sB) = 16 /\
  forall n, exists m, return_way (fun s => s = sA \/ s = sB) m0 [m] n [].
Proof.
  observe (fun s => (x_ttl (cf s), log s, log (recv_item 1 (RMsg 40 (stray 131072)) s))) (twin 65536 131072).
  pose proof (f_equal fst (f_equal fst E)) as A1. pose proof (f_equal snd (f_equal fst E)) as A2. pose proof (f_equal snd E) as A3. cbn [fst snd] in A1, A2, A3. clear E.
  rename s into sA, R into RA.
  observe (fun s => (x_ttl (cf s), log s, log (recv_item 1 (RMsg 40 (stray 65536)) s))) (twin 131072 65536).
  pose proof (f_equal fst (f_equal fst E)) as B1. pose proof (f_equal snd (f_equal fst E)) as B2. pose proof (f_equal snd E) as B3. cbn [fst snd] in B1, B2, B3. clear E.
  exists sA, s, (stray 131072), (data0 65536 327690 []).
  split; [reflexivity|]. split; [exact RA|]. split; [exact R|]. split; [exact A1|]. split; [exact B1|].
  assert (X : forall n, return_way (fun x => x = sA \/ x = s) (stray 131072) [stray 131072] n [] \/ return_way (fun x => x = sA \/ x = s) (stray 131072) [stray 65536] n []).
  { intro n. induction n as [|n [IH|IH]]; [left; apply R_sent|right|left].
    - eapply (one_return _ _ _ _ _ sA 1 40); [exact IH|exact RA|now left|added A2 A3|reflexivity|cbn [length]; lia|reflexivity].
    - eapply (one_return _ _ _ _ _ s 1 40); [exact IH|exact R|now right|added B2 B3|reflexivity|cbn [length]; lia|reflexivity]. }
  intro n. destruct (X n); eauto.
Qed.
(** The same as one history of two nodes: each receives what the other sent last, by
    polling its shared memory channel, and the response has gone back and forth forty
    times, with a [ttl] of 16. *)
Inductive bounces (fuel : nat) : nat -> node -> node -> msg -> Prop :=
| B_done a b m : bounces fuel 0 a b m
| B_pass n a b m a' m' w k z : step fuel (EProc 101 [(1, [RMsg 40 m])]) a = Some a' ->
    In (TSend 4 m' k z) (firstn (length (log a') - length (log a)) (log a')) -> (0 <= z)%Z ->
    m_body m' = BData true w -> bounces fuel n b a' m' -> bounces fuel (S n) a b m.
Definition rsp_sent (t : tr) : option msg :=
  match t with
  | TSend 4 m _ z => match m_body m with BData true _ => if (0 <=? z)%Z then Some m else None | _ => None end
  | _ => None end.
Fixpoint first_rsp (l : list tr) : option msg := match l with [] => None | t :: r => match rsp_sent t with Some m => Some m | None => first_rsp r end end.
Fixpoint bounce (fuel n : nat) (a b : node) (m : msg) : bool :=
  match n with
  | O => true
  | S n => match step fuel (EProc 101 [(1, [RMsg 40 m])]) a with
           | Some a' => let new := firstn (length (log a') - length (log a)) (log a') in
               match first_rsp new with Some m' => bounce fuel n b a' m' | None => false end
           | None => false end
  end.
Lemma first_rsp_in l m : first_rsp l = Some m -> exists k z w, In (TSend 4 m k z) l /\ (0 <= z)%Z /\ m_body m = BData true w.
Proof.
  induction l as [|t l IH]; [discriminate|]. cbn [first_rsp]. destruct (rsp_sent t) as [x|] eqn:X.
  - intros [= ->]. destruct t as [c m' n z| | | | | | | | | | | | | | | | | | | | | |]; try discriminate.
    assert (c = 4) as ->.
    { cbn in X. destruct c as [|[|[|[]|]|]]; try discriminate. reflexivity. }
    cbn in X. destruct (m_body m') as [[] w| | | | | |] eqn:B; try discriminate. destruct (Z.leb_spec 0 z); [|discriminate]. injection X as ->.
    exists n, z, w. split; [now left|]. now split.
  - intro H. destruct (IH H) as (k & z & w & H1 & H2). exists k, z, w. split; [now right|exact H2].
Qed.
Lemma bounce_sound fuel n : forall a b m, bounce fuel n a b m = true -> bounces fuel n a b m.
Proof.
  induction n as [|n IH]; intros a b m H; [constructor|]. cbn [bounce] in H.
  destruct (step fuel _ a) as [a'|] eqn:S; [|discriminate]. cbv zeta in H.
  destruct (first_rsp _) as [m'|] eqn:F; [|discriminate]. apply first_rsp_in in F as (k & z & w & F1 & F2 & F3).
  eapply B_pass; eauto.
Qed.
Theorem C26_responses_run_refuted : exists sA sB m0, reachable sA /\ reachable sB /\ x_ttl (cf sA) = 16 /\ x_ttl (cf sB) = 16 /\ bounces fuel0 40 sA sB m0.
Proof.
  destruct (run fuel0 (twin 65536 131072) new_node) as [a|] eqn:A; [|exfalso; revert A; vm_compute; discriminate].
  destruct (run fuel0 (twin 131072 65536) new_node) as [b|] eqn:B; [|exfalso; revert B; vm_compute; discriminate].
  assert (X : match run fuel0 (twin 65536 131072) new_node, run fuel0 (twin 131072 65536) new_node with
    | Some a, Some b => ((x_ttl (cf a) =? 16) && (x_ttl (cf b) =? 16) && bounce fuel0 40 a b (stray 131072))%bool | _, _ => false end = true) by (vm_compute; reflexivity).
  rewrite A, B in X. apply andb_prop in X as [X Y]. apply andb_prop in X as [X1 X2]. apply N.eqb_eq in X1, X2.
  assert (RA : reachable a) by now exists fuel0, (twin 65536 131072).
  assert (RB : reachable b) by now exists fuel0, (twin 131072 65536).
  exists a, b, (stray 131072). split; [exact RA|]. split; [exact RB|]. split; [exact X1|]. split; [exact X2|]. now apply bounce_sound.
Qed.

(** ** C44 *)
Definition wants (w : fwd) : bool := N.testbit (w_flags w) 0.
Definition failure (m : msg) : Prop := (h_ret (m_head m) < 0)%Z.
(** A failure response is true: a message that caused one is not delivered, neither
    before nor later.  Without the option nothing but one failure response is sent. *)
Theorem C44_failure_is_true P m0 w0 fl n d r : m_body m0 = BData false w0 -> spread P m0 fl n d r ->
  ((exists m, In m r /\ failure m) -> fl = [] /\ d = []) /\
  (wants w0 = false -> r = [] \/ exists m, r = [m] /\ failure m).
Proof.
  intros B S.
  assert (K : (fl = [] \/ d = [] /\ (forall m, In m r -> ~ failure m) /\ (wants w0 = false -> r = []) /\ exists m, fl = [m] /\ alike m0 m) /\
     ((exists m, In m r /\ failure m) -> d = []) /\ (wants w0 = false -> r = [] \/ exists m, r = [m] /\ failure m)).
  { induction S as [|l1 m l2 n d r S IH|l1 m l2 n d r s c k l S IH R PS L].
    - split; [|split; [now intros (m & [] & _)|auto]]. right. repeat split; auto. exists m0. split; [reflexivity|]. eapply alike_refl; eassumption.
    - destruct IH as ([IH1|(IH1 & IH2 & IH3 & m' & E & A)] & IH4 & IH5); [now destruct l1|].
      apply one_split in E as (-> & -> & ->). cbn [app]. auto.
    - destruct IH as ([IH1|(-> & IH2 & IH3 & m' & E & A)] & IH4 & IH5); [now destruct l1|].
      apply one_split in E as (-> & -> & ->). cbn [app]. rewrite !app_nil_r.
      pose proof A as (_ & _ & _ & _ & b & w & w' & E1 & E2 & E3 & E4 & E5 & E6). rewrite B in E1. injection E1 as <- <-.
      pose proof (receipt s c k m' w' l R E2 L) as (Q1 & _).
      assert (NF : forall l', (forall m, In m l' -> ~ failure m) -> ~ (exists m, In m (l' ++ r) /\ failure m)).
      { intros l' H (x & X & F). apply in_app_iff in X as [X|X]; [now apply (H x)|now apply (IH2 x)]. }
      destruct (receipt_counts s c k m' w' l R E2 L) as [C1 C2 C3 _|m2 C1 C2 C3 C4 _|m2 _ C1 C2 C3|m2 _ C1 C2 C3]; rewrite C1, C2.
      + rewrite C3. cbn [app]. split; [now left|]. split; [now intros|]. intro F. left. now apply IH3.
      + rewrite C3. cbn [app]. split; [now left|]. split; [now intros|]. intro F. right. exists m2. now rewrite (IH3 F).
      + split; [now left|]. destruct C3 as [->|(m3 & -> & C3 & C4)].
        * split; [intro X; now apply (NF [] (fun _ H => False_ind _ H)) in X|]. intro F. left. now apply IH3.
        * split; [intro X; elim (NF [m3]); [|exact X]; intros x [<-|[]]; unfold failure; rewrite C3; discriminate|].
          intro F. unfold wants in F. rewrite <- E6 in F. congruence.
      + destruct C3 as [->|(m3 & -> & C3 & C4 & _)].
        * cbn [app]. split; [|split; [trivial|intro F; left; now apply IH3]]. right. split; [reflexivity|]. split; [exact IH2|]. split; [exact IH3|].
          exists m2. split; [reflexivity|]. eapply alike_trans; [exact A|]. apply Q1. rewrite C1. now left.
        * cbn [app].
          assert (NW : wants w0 = false -> False) by (unfold wants; rewrite <- E6; congruence).
          split; [|split; [trivial|intro F; now apply NW in F]]. right. split; [reflexivity|].
          split; [intros x [<-|X]; [unfold failure; lia|now apply IH2]|]. split; [intro F; now apply NW in F|].
          exists m2. split; [reflexivity|]. eapply alike_trans; [exact A|]. apply Q1. rewrite C1. now left. }
  destruct K as (K1 & K2 & K3). split; [|exact K3]. intro F. split; [|now apply K2].
  destruct K1 as [K1|(_ & K1 & _)]; [exact K1|]. destruct F as (m & M & F). now elim (K1 m M).
Qed.
(** A message that only visits nodes responsible for its target, from the top of the
    tree downwards, causes at most one response, and a success response only together
    with its delivery. *)
Theorem C44_downwards_partial m0 w0 fl n d r : m_body m0 = BData false w0 -> w_to w0 <> 0 ->
  spread (fun s => my_id s <> 0 /\ (my_id s = w_to w0 \/ own s (w_to w0))) m0 fl n d r ->
  r = [] \/ exists m, r = [m] /\ (failure m /\ d = [] \/ h_ret (m_head m) = 0%Z /\ wants w0 = true /\ exists m', d = [m']).
Proof.
  intros B T0 S.
  assert (K : (fl = [] \/ d = [] /\ r = [] /\ exists m, fl = [m] /\ alike m0 m) /\
     (r = [] \/ exists m, r = [m] /\ (failure m /\ d = [] \/ h_ret (m_head m) = 0%Z /\ wants w0 = true /\ exists m', d = [m']))); [|apply K].
  induction S as [|l1 m l2 n d r S IH|l1 m l2 n d r s c k l S IH R [PS0 PS] L].
  - split; [|now left]. right. repeat split; auto. exists m0. split; [reflexivity|]. eapply alike_refl; eassumption.
  - destruct IH as ([IH1|(IH1 & IH2 & m' & E & A)] & IH3); [now destruct l1|].
    apply one_split in E as (-> & -> & ->). cbn [app]. auto.
  - destruct IH as ([IH1|(-> & -> & m' & E & A)] & _); [now destruct l1|].
    apply one_split in E as (-> & -> & ->). cbn [app]. rewrite !app_nil_r.
    pose proof A as (_ & _ & _ & _ & b & w & w' & E1 & E2 & E3 & E4 & E5 & E6). rewrite B in E1. injection E1 as <- <-.
    pose proof (receipt s c k m' w' l R E2 L) as (Q1 & _).
    destruct (receipt_counts s c k m' w' l R E2 L) as [C1 C2 C3 _|m2 C1 C2 C3 C4 _|m2 _ C1 C2 C3|m2 C0 C1 C2 C3]; rewrite C1, C2.
    + rewrite C3. split; now left.
    + rewrite C3. split; [now left|]. right. exists m2. auto.
    + split; [now left|]. destruct C3 as [->|(m3 & -> & C3 & C4)]; [now left|right]. exists m3. split; [reflexivity|]. right. unfold wants. rewrite <- E6. eauto.
    + assert (CH : is_child s (w_to w') = true).
      { rewrite E4 in *. destruct PS as [PS|PS]; [congruence|]. now apply is_child_own. }
      destruct C3 as [->|(m3 & _ & _ & _ & C3)]; [|congruence]. split; [|now left]. right. split; [reflexivity|]. split; [reflexivity|].
      exists m2. split; [reflexivity|]. eapply alike_trans; [exact A|]. apply Q1. rewrite C1. now left.
Qed.
(** What arrives at its target is delivered, once, and with the option one success
    response is handed to the next node on the way back, if that one is connected. *)
Theorem C44_at_target s c k m w l : reachable s -> m_body m = BData false w -> w_to w = my_id s -> (ver <= h_ver (m_head m))%Z ->
  k_st (cs s c) = Connected -> log (recv_item c (RMsg k m) s) = l ++ log s ->
  (exists m', handed l = [m'] /\ alike m m') /\ passed_on false l = [] /\
  (wants w = false -> replies l = []) /\
  (wants w = true -> settled s -> self s <> None -> w_from w <> 0 -> w_from w <> my_id s ->
   (forall m', reply_to m m' -> x_size (cf s) m' <= x_msg (cf s) + 1024) ->
   (forall hop, next s (w_from w) hop -> exists x c', hop = Some x /\ d_ctrl (es s (e_ref x)) = Some c' /\
        e_ref x <> my_ref s /\ k_st (cs s c') = Connected /\ k_kind (cs s c') = KSock) ->
   exists m', replies l = [m'] /\ reply_to m m' /\ h_ret (m_head m') = 0%Z).
Proof.
  intros R B TO V ST L. pose proof (receipt s c k m w l R B L) as (Q1 & Q2 & Q3).
  assert (CN : is_connected s c = true) by (unfold is_connected; now rewrite ST).
  destruct (receipt_counts s c k m w l R B L) as [C1 C2 C3 C4|m2 C1 C2 C3 C4 C5|m2 C0 C1 C2 C3|m2 C0 C1 C2 C3];
    [exfalso; destruct C4 as [X|[X|X]]; [lia|congruence|contradiction]|exfalso; destruct C5 as [X|X]; [lia|contradiction]| |contradiction].
  split; [exists m2; split; [exact C2|]; apply Q2; rewrite C2; now left|]. split; [exact C1|].
  split; [intro F; destruct C3 as [C3|(x & _ & _ & X)]; [exact C3|unfold wants in F; congruence]|].
  intros WA SE SF F0 FM SZ HOP. destruct C3 as [C3|(x & C3 & C4 & C5)]; [exfalso|exists x; split; [exact C3|]; split; [|exact C4]; apply Q3; rewrite C3; now left].
  revert L. cbn [recv_item]. cbv zeta. rewrite stamp_pull, on_recv_eq. set (s1 := on_c c _ s). intro L.
  pose proof (level_pull c k s : level s s1) as LV.
  pose proof (qt_after c (dispatch_msg c (stamp s c m) s1)) as (la & LA & _).
  assert (CN1 : is_connected s1 c = true) by (unfold is_connected; now rewrite (L_st _ _ LV), ST).
  pose proof (stamp_alike s c m _ _ B) as (S1 & S2 & S3 & S4 & _).
  set (h := m_head (stamp s c m)) in *.
  assert (EX : exists c' m' q z l', log (fst (dispatch_msg c (stamp s c m) s1)) = TSend c' m' q z :: l' ++ log s /\ exists w', m_body m' = BData true w').
  { unfold dispatch_msg. rewrite stamp_body, B. cbv zeta. fold h. unfold data_req.
    assert (VF : (h_ver h <? ver)%Z = false) by (apply Z.ltb_ge; lia). rewrite VF, CN1. cbn [negb].
    rewrite (level_my _ _ LV), TO, N.eqb_refl. cbv zeta. unfold wants in WA. rewrite WA. set (s2 := emit _ s1).
    unfold transfer_rsp, send_to. cbv zeta. change (my_id s2) with (my_id s1). rewrite (level_my _ _ LV).
    apply N.eqb_neq in FM as FM'. rewrite FM'. cbn [andb]. set (m1 := {| m_head := _; m_body := _ |}).
    assert (NS : nst s <> NCreated).
    { intro X. pose proof (I_created s (reachable_Inv s R) X) as [P0 R0]. destruct (HOP (next_hop s (w_from w))) as (x & c' & HX & _).
      - now apply next_hop_next.
      - apply next_hop_tabled in HX as [HX|(rr & HX)]; [congruence|rewrite R0 in HX; contradiction]. }
    destruct (HOP (next_hop s (w_from w)) (next_hop_next s _ R SE F0)) as (x & c' & HX & DC & NR & CC & KK).
    assert (RM : remote false s2 (w_from w) = (E_OK, Some x, Some c')).
    { unfold remote. change (self s2) with (self s). destruct (self s); [|congruence]. change (nst s2) with (nst s). change (my_id s2) with (my_id s). rewrite FM'.
      change (next_hop s2 (w_from w)) with (next_hop s (w_from w)). rewrite HX.
      assert (PK : pick false s2 x = Some c').
      { unfold pick, ctrl_conn. change (my_ref s2) with (my_ref s). apply N.eqb_neq in NR. rewrite NR. change (es s2) with (es s). rewrite DC.
        assert (is_connected s2 c' = true) as ->; [|reflexivity]. unfold is_connected. change (cs s2 c') with (cs s1 c'). now rewrite (L_st _ _ LV), CC. }
      rewrite PK. destruct (nst s); [congruence|reflexivity..]. }
    assert (PO : exists s3 m3, number m1 s2 = (s3, m3) /\ cs s3 = cs s1 /\ cf s3 = cf s /\ log s3 = TRecv (k_bind (cs s1 c)) (Some c) {| m_head := h; m_body := BData false w |} :: log s /\ reply_to m m3).
    { assert (RT : forall z, (h_seq h <> 0 -> z = h_seq h) -> reply_to m (set_seq z m1)).
      { intros z Z. unfold reply_to, m1. cbn [set_seq m_head m_body h_ver h_type h_seq set_ret_src]. rewrite S4 in Z. repeat split; trivial.
        exists w, (turn (my_id s) w). unfold turn. destruct (match w_router w with [] => false | _ => _ end); cbn; repeat split; trivial. }
      unfold number, alloc_seq. destruct (N.eqb_spec (h_seq (m_head m1)) 0) as [Z|Z]; cbv zeta.
      - eexists _, _. split; [reflexivity|]. repeat split; trivial; try apply RT; intro X; elim X; exact Z.
      - exists s2, m1. repeat split; trivial; try (now apply (RT (h_seq h))). }
    destruct PO as (s3 & m3 & NU & CS3 & CF3 & LG3 & RT3).
    assert (PS : post false (w_from w) m1 s2 = send_on c' m3 s3).
    { unfold post. change (nst s2) with (nst s). change (my_id s2) with (my_id s). rewrite FM', RM, NU. destruct (nst s); [congruence|reflexivity..]. }
    rewrite PS. unfold send_on. rewrite CF3. pose proof (SZ m3 RT3) as SZ'. apply N.ltb_ge in SZ'. rewrite SZ'. unfold push. cbv zeta.
    assert (K1 : k_st (cs (on_c c' (fun k0 => set_k_start (bump (k_start k0) (x_size (cf s3) m3)) k0) s3) c') = Connected).
    { unfold on_c, upd. cbn [cs set_cs]. rewrite N.eqb_refl. cbn [k_st set_k_start]. rewrite CS3, (L_st _ _ LV). exact CC. }
    assert (K2 : k_kind (cs (on_c c' (fun k0 => set_k_start (bump (k_start k0) (x_size (cf s3) m3)) k0) s3) c') = KSock).
    { unfold on_c, upd. cbn [cs set_cs]. rewrite N.eqb_refl. cbn [k_kind set_k_start]. rewrite CS3, (L_kind _ _ LV). exact KK. }
    rewrite K1, K2. destruct RT3 as (_ & _ & _ & _ & w3 & _ & BW3 & _). unfold take_orc. cbn [orc on_c set_cs].
    destruct (orc s3) as [|z o]; (do 4 eexists; exists [TRecv (k_bind (cs s1 c)) (Some c) {| m_head := h; m_body := BData false w |}]; split; [destruct (_ <? 0)%Z; cbn [fst emit log set_log on_c set_cs set_orc app]; rewrite LG3; reflexivity|eauto]). }
  destruct EX as (c' & m' & q & z & l' & EX & w' & BW). rewrite LA, EX in L.
  change (la ++ TSend c' m' q z :: l' ++ log s) with (la ++ (TSend c' m' q z :: l') ++ log s) in L. rewrite app_assoc in L. apply app_inv_tail in L as <-.
  unfold replies in C3. rewrite flat_map_app in C3. cbn [flat_map] in C3. rewrite BW in C3. destruct (flat_map _ la); discriminate.
Qed.

(** Every response reaches the response callback of its target at most once, unchanged. *)
Theorem C44_answered_once P m0 w0 fl n d : m_body m0 = BData true w0 -> return_way P m0 fl n d ->
  (length fl + length d <= 1)%nat /\ Forall (alike m0) (fl ++ d).
Proof. intros B S. destruct (return_once P m0 w0 fl n d B S) as (A & F1 & F2). split; [exact A|]. now apply Forall_app. Qed.
(** A node that passes a message on to a node outside its own subnets reports success
    when the transport has taken the message.  Here 65536 does so for a message from
    65540 to 131072: the sender gets two success responses, or, if the copy is lost, one
    for a message that is never delivered. *)
Definition data1 from to router := {| w_from := from; w_to := to; w_router := router; w_content := [9; 9]; w_flags := 1 |}.
Definition ask := msg0 65540 (BData false (data1 65540 131072 [65540])).
Definition boot_at me peer nets := [EInit me cfg0; EStart 100; EListen adr; EIo (IAccepted adr2);
  EIo (IRecv 2 (RMsg 10 (msg0 peer (BReg false (reg0 peer nets))))); EIo (IConnected 3 0)].
Theorem C44_one_response_refuted : exists m1 m2 m3, spread (fun s => x_ttl (cf s) = 16) ask [] 1 [m1] [m2; m3] /\
  h_ret (m_head m2) = 0%Z /\ h_ret (m_head m3) = 0%Z.
Proof.
  observe (fun s => (x_ttl (cf s), log s, log (recv_item 2 (RMsg 40 ask) s)))
    (boot 65540 [] ++ [EIo (IAccepted adr2); EIo (IRecv 4 (RMsg 10 (msg0 131072 (BReg false (reg0 131072 [{|c_prefix:=131072;c_mask:=16|}])))))]).
  pose proof (f_equal fst (f_equal fst E)) as A1. pose proof (f_equal snd (f_equal fst E)) as A2. pose proof (f_equal snd E) as A3. cbn [fst snd] in A1, A2, A3. clear E.
  rename s into sA, R into RA.
  observe (fun s => (x_ttl (cf s), log s, log (recv_item 2 (RMsg 40 (msg0 65536 (BData false (data1 65540 131072 [65540; 65536])))) s)))
    (boot_at 131072 65536 [{|c_prefix:=65536;c_mask:=16|}]).
  pose proof (f_equal fst (f_equal fst E)) as B1. pose proof (f_equal snd (f_equal fst E)) as B2. pose proof (f_equal snd E) as B3. cbn [fst snd] in B1, B2, B3. clear E.
  do 3 eexists. split.
  - eapply (one_receipt _ _ _ 1 [] _ s 2 40); [|exact R|exact B1|added B2 B3|reflexivity|reflexivity|reflexivity|reflexivity].
    eapply (one_receipt _ _ _ 0 [] [] sA 2 40); [apply S_sent|exact RA|exact A1|added A2 A3|reflexivity..].
  - split; reflexivity.
Qed.
Theorem C44_success_means_delivered_refuted : exists m, spread (fun s => x_ttl (cf s) = 16) ask [] 1 [] [m] /\ h_ret (m_head m) = 0%Z.
Proof.
  observe (fun s => (x_ttl (cf s), log s, log (recv_item 2 (RMsg 40 ask) s)))
    (boot 65540 [] ++ [EIo (IAccepted adr2); EIo (IRecv 4 (RMsg 10 (msg0 131072 (BReg false (reg0 131072 [{|c_prefix:=131072;c_mask:=16|}])))))]).
  pose proof (f_equal fst (f_equal fst E)) as A1. pose proof (f_equal snd (f_equal fst E)) as A2. pose proof (f_equal snd E) as A3. cbn [fst snd] in A1, A2, A3. clear E.
  eexists. split.
  - eapply (S_lost _ _ [] _ []). eapply (one_receipt _ _ _ 0 [] [] s 2 40); [apply S_sent|exact R|exact A1|added A2 A3|reflexivity..].
  - reflexivity.
Qed.
(** 65540 asks 65536 itself: delivered, one response. *)
Definition ask2 := msg0 65540 (BData false (data1 65540 65536 [65540])).
Example C44_case : exists m1 m2, spread (fun s => my_id s <> 0 /\ (my_id s = 65536 \/ own s 65536)) ask2 [] 0 [m1] [m2] /\ alike ask2 m1 /\ reply_to ask2 m2.
Proof.
  observe (fun s => (my_id s, log s, log (recv_item 2 (RMsg 40 ask2) s))) (boot 65540 []).
  pose proof (f_equal fst (f_equal fst E)) as A1. pose proof (f_equal snd (f_equal fst E)) as A2. pose proof (f_equal snd E) as A3. cbn [fst snd] in A1, A2, A3. clear E.
  do 2 eexists. split; [|split].
  - eapply (one_receipt _ _ _ 0 [] [] s 2 40); [apply S_sent|exact R|rewrite A1; split; [discriminate|now left]|added A2 A3|reflexivity..].
  - repeat split. do 3 eexists. repeat split.
  - repeat split. do 2 eexists. repeat split.
Qed.
Example C44_target_case : exists s, reachable s /\ my_id s = 65536 /\ k_st (cs s 2) = Connected /\ settled s /\ self s <> None /\
  x_size (cf s) ask2 <= x_msg (cf s) + 1024 /\
  forall hop, next s 65540 hop -> exists x c', hop = Some x /\ d_ctrl (es s (e_ref x)) = Some c' /\
        e_ref x <> my_ref s /\ k_st (cs s c') = Connected /\ k_kind (cs s c') = KSock.
Proof.
  observe (fun s => (my_id s, k_st (cs s 2), k_kind (cs s 2), log s, d_ep (es s 2), self s, parent s, routes s, d_ctrl (es s 2), my_ref s, (x_size (cf s) ask2, x_msg (cf s)))) (boot 65540 []).
  injection E as E1 E2 E3 E4 E5 E6 E7 E8 E9 E10 E11 E12. exists s. split; [exact R|]. split; [exact E1|]. split; [exact E2|]. split.
  { intros e H. rewrite E4 in H. cbn [In] in H. assert (e = 2) as -> by (intuition congruence). rewrite E5. unfold good_ep. cbn [e_subs e_id].
    split; [repeat constructor; unfold good; cbn; lia|]. split; [repeat constructor|]. eexists. split; [now left|]. cbn. lia. }
  split; [rewrite E6; discriminate|]. split; [rewrite E11, E12; discriminate|].
  assert (CV : covers {| e_ref := 2; e_id := 65540; e_subs := [{| g_prefix := 65540; g_mask := 0; g_min := 65540; g_max := 65540 |}] |} 65540) by (eexists; split; [now left|]; cbn; lia).
  intros hop NX. destruct NX as [p P _|rr x _ RT _|p P _ _ _|_ NR _]; try congruence.
  - rewrite E8 in RT. destruct RT as [RT|[]]. injection RT as <- <-. eexists _, 2. split; [reflexivity|]. cbn [e_ref]. rewrite E9, E10. repeat split; trivial; discriminate.
  - exfalso. rewrite E8 in NR. exact (NR _ (or_introl eq_refl) CV).
Qed.
Print Assumptions C26_requests.
Print Assumptions C26_sent.
Print Assumptions C26_responses_refuted.
Print Assumptions C26_responses_run_refuted.
Print Assumptions C44_failure_is_true.
Print Assumptions C44_downwards_partial.
Print Assumptions C44_at_target.
Print Assumptions C44_answered_once.
Print Assumptions C44_one_response_refuted.
Print Assumptions C44_success_means_delivered_refuted.
