(** C42: encoded size of data messages. *)
From Verif Require Import Base Subnet Route RouteProof Address MemSpec Mem MemProof PropMem Buffer NodeTypes NodeConn NodeCore NodeMsg Node
  NodeFrame NodeReset NodeInv NodeKeep NodeSteps NodeReach NodeSpec NodeLog NodeTrace NodeHandle PropNodeMsg NetSpec NetProof PropNet Proto NodeExample.
Local Open Scope N_scope.
Ltac Zify.zify_post_hook ::= idtac.

Lemma varint_go_len f : forall n, (1 <= length (varint_go f n) <= S f)%nat.
Proof.
  induction f as [|f IH]; intro n; cbn [varint_go length]; [lia|]. destruct (n <? 128); cbn [length]; [lia|]. specialize (IH (n / 128)). lia.
Qed.
Lemma varint_len n : (length (varint n) <= 10)%nat. Proof. unfold varint. pose proof (varint_go_len 9 (wrap64 n)). lia. Qed.
(** [k+1] bytes hold [7k+7] bits. *)
Lemma varint_go_small k : forall f n, (k <= f)%nat -> n < 2 ^ (7 * N.of_nat k + 7) -> (length (varint_go f n) <= S k)%nat.
Proof.
  induction k as [|k IH]; intros f n F L; destruct f as [|f]; cbn [varint_go]; try (cbn [length]; lia).
  - change (2 ^ (7 * N.of_nat 0 + 7)) with 128 in L. apply N.ltb_lt in L. rewrite L. cbn [length]. lia.
  - destruct (n <? 128); cbn [length]; [lia|].
    assert (n / 128 < 2 ^ (7 * N.of_nat k + 7)).
    { apply N.div_lt_upper_bound; [lia|]. replace (7 * N.of_nat (S k) + 7) with (7 + (7 * N.of_nat k + 7)) in L by lia.
      rewrite N.pow_add_r in L. change (2 ^ 7) with 128 in L. exact L. }
    specialize (IH f (n / 128) ltac:(lia) H). lia.
Qed.
Lemma varint_small k n : (k <= 9)%nat -> n < 2 ^ (7 * N.of_nat k + 7) -> n < two64 -> (length (varint n) <= S k)%nat.
Proof. intros K L T. unfold varint. rewrite wrap64_small by exact T. now apply varint_go_small. Qed.
Lemma varint5 n : n < 2 ^ 35 -> (length (varint n) <= 5)%nat.
Proof. intro L. apply (varint_small 4); [lia|exact L|]. unfold two64. change (2 ^ 64) with (2 ^ 35 * 2 ^ 29). lia. Qed.
Lemma f_int_len t v : (length (f_int t v) <= 11)%nat.
Proof. unfold f_int. destruct (_ =? 0); cbn [length]; [lia|]. pose proof (varint_len v). lia. Qed.
Lemma f_int_len32 t v : v < 2 ^ 32 -> (length (f_int t v) <= 6)%nat.
Proof.
  intro L. unfold f_int. destruct (_ =? 0); cbn [length]; [lia|]. assert (v < 2 ^ 35) by (change (2 ^ 35) with (2 ^ 32 * 8); lia).
  pose proof (varint5 v H). lia.
Qed.
Lemma sint32_lt z : sint32 z < 2 ^ 32.
Proof. unfold sint32. set (x := if (z <? 0)%Z then _ else _). pose proof (Z.mod_pos_bound x (2 ^ 32)). change (2 ^ 32) with (Z.to_N (2 ^ 32)). lia. Qed.
Lemma head_len h : (length (f_bytes 10 (enc_head h)) <= 52)%nat.
Proof.
  assert (L : (length (enc_head h) <= 50)%nat).
  { unfold enc_head. rewrite !app_length. pose proof (f_int_len 8 (int32 (h_ver h))). pose proof (f_int_len 16 (int32 (h_type h))).
    pose proof (f_int_len32 24 _ (sint32_lt (h_ret h))). pose proof (f_int_len 32 (h_seq h)). pose proof (f_int_len 40 (h_src h)). lia. }
  unfold f_bytes. cbn [length]. rewrite app_length.
  assert (length (varint (N.of_nat (length (enc_head h)))) <= 1)%nat.
  { apply (varint_small 0); [lia| |]; [change (2 ^ (7 * N.of_nat 0 + 7)) with 128; lia|unfold two64; change (2 ^ 64) with (128 * 2 ^ 57); lia]. }
  lia.
Qed.
Lemma router_len l : (length (flat_map varint l) <= 10 * length l)%nat.
Proof. induction l as [|x l IH]; cbn [flat_map length]; [lia|]. rewrite app_length. pose proof (varint_len x). lia. Qed.
Lemma opt_len t b : N.of_nat (length b) < 2 ^ 35 -> (length (f_bytes_opt t b) <= length b + 6)%nat.
Proof.
  intro L. destruct b as [|x b]; [cbn; lia|]. unfold f_bytes_opt, f_bytes. cbn [length]. rewrite app_length. pose proof (varint5 _ L). cbn [length] in *. lia.
Qed.
(** The bound.  Messages above 2 GiB cannot be encoded at all. *)
Theorem C42_size h rsp w : N.of_nat (length (w_content w)) < 2 ^ 31 -> N.of_nat (length (w_router w)) < 2 ^ 24 ->
  (length (enc_data h rsp w) <= length (w_content w) + 10 * length (w_router w) + 98)%nat.
Proof.
  intros LC LR. unfold enc_data. rewrite app_length. pose proof (head_len h).
  pose proof (router_len (w_router w)) as RL.
  assert (B31 : 2 ^ 35 = 16 * 2 ^ 31) by reflexivity. assert (B24 : 2 ^ 31 = 128 * 2 ^ 24) by reflexivity.
  pose proof (opt_len 26 (flat_map varint (w_router w)) ltac:(lia)) as O1.
  pose proof (opt_len 34 (w_content w) ltac:(lia)) as O2.
  assert (F : (length (enc_fwd w) <= length (w_content w) + 10 * length (w_router w) + 40)%nat).
  { unfold enc_fwd. rewrite !app_length. pose proof (f_int_len 8 (w_from w)). pose proof (f_int_len 16 (w_to w)).
    pose proof (f_int_len32 40 (w_flags w mod 2 ^ 32) (N.mod_lt (w_flags w) (2 ^ 32) ltac:(discriminate))). lia. }
  unfold f_bytes at 2. cbn [length]. rewrite app_length. pose proof (varint5 (N.of_nat (length (enc_fwd w))) ltac:(lia)). lia.
Qed.
(** A message [send_data] accepted, at the sender and after any number of forwards in
    any network whose ttl is at most 91, and every response it causes, stays within
    the limit of every node whose [msg_size] is at least that of the sender: the
    payload plus 1024 bytes. *)
Definition fits (M : N) (m : msg) : Prop := forall rsp w, m_body m = BData rsp w -> N.of_nat (length (enc_data (m_head m) rsp w)) <= M + 1024.
Definition short (n : nat) (t : tr) : Prop :=
  match t with TSend _ m _ _ => forall w, m_body m = BData true w -> (length (w_router w) <= n)%nat | _ => True end.
Lemma inner_short n t : inner t -> short n t.
Proof. destruct t as [c m k z| | | | | | | | | | | | | | | | | | | | | |]; cbn; trivial. unfold is_data. intros D w B. now rewrite B in D. Qed.
Lemma rsp_short n h w code s : Inv s -> (length (w_router (turn (my_id s) w)) <= n)%nat -> adds (short n) s (fst (transfer_rsp h w code s)).
Proof.
  intros I L. unfold transfer_rsp. apply send_to_adds; [exact I|apply inner_short|]. intros e c q z _ w' B.
  destruct (_ =? 0); cbn in B; injection B as <-; exact L.
Qed.
Lemma turn_len me w : (length (w_router (turn me w)) <= S (length (w_router w)))%nat.
Proof. unfold turn. destruct (match w_router w with [] => false | _ => _ end); cbn; [lia|]. rewrite app_length. cbn. lia. Qed.
Lemma turn_added me w : w_router (turn me (add_router w me)) = w_router w ++ [me].
Proof.
  unfold turn, add_router. cbn [w_router]. rewrite last_last, N.eqb_refl. destruct (w_router w ++ [me]) as [|x l] eqn:E; [|reflexivity].
  apply app_eq_nil in E as [_ E]. discriminate.
Qed.
Lemma forward_short n h w f t s : adds (short n) s (fst (fst (fst (forward false h w f t s)))).
Proof.
  unfold forward. destruct (_ =? 0); [apply adds_refl|]. destruct (_ =? _); [apply adds_refl|].
  destruct (remote true s t) as [[r oe] oc]. destruct oe as [e|]; [|apply adds_refl]. destruct oc as [c|]; [|apply adds_refl].
  destruct (_ && _); [apply adds_refl|]. cbv zeta.
  match goal with |- context [send_on c ?m s] => pose proof (adds_send_on (short n) c m s) as A; destruct (send_on c m s) as [s2 z2] end.
  cbn [fst] in *. apply A. intros z w' B. discriminate.
Qed.
Lemma data_req_short c h w s : Inv s -> adds (short (S (length (w_router w)))) s (fst (data_req c h w s)).
Proof.
  intro I. unfold data_req. destruct (_ <? _)%Z; [apply rsp_short; [exact I|apply turn_len]|].
  destruct (negb _); [apply adds_refl|]. destruct (_ =? _).
  { cbv zeta. set (s1 := emit _ s). assert (I1 : Inv s1) by (eapply (steps_Inv true); [apply st_emit; exact Logic.I|exact I]).
    apply (adds_trans _ s s1); [apply adds_emit; exact Logic.I|].
    destruct (N.testbit _ _); [apply rsp_short; [exact I1|apply turn_len]|apply adds_refl]. }
  destruct (_ <=? _); [apply rsp_short; [exact I|apply turn_len]|]. cbv zeta. set (w1 := add_router w (my_id s)).
  assert (FI : forall h1 to s1, Inv s1 -> Inv (fst (fst (fst (forward false h1 w1 (h_src h) to s1))))).
  { intros h1 to s1 I1. eapply (steps_Inv true); [apply st_forward|exact I1]. }
  pose proof (forward_short (S (length (w_router w))) h w1 (h_src h) (w_to w1) s) as A1.
  pose proof (level_forward false h w1 (h_src h) (w_to w1) s) as L1. pose proof (FI h (w_to w1) s I) as I1.
  destruct (forward false h w1 (h_src h) (w_to w1) s) as [[[s1 res] oe] h1]. cbn [fst snd] in *.
  assert (FIN : forall b h2 z s2, level s s2 -> Inv s2 -> adds (short (S (length (w_router w)))) s s2 ->
    adds (short (S (length (w_router w)))) s (fst (if b : bool then transfer_rsp h2 w1 z s2 else (s2, z)))).
  { intros b h2 z s2 L2 I2 A2. destruct b; [|exact A2]. eapply adds_trans; [exact A2|]. apply rsp_short; [exact I2|].
    unfold w1. rewrite (level_my _ _ L2), turn_added, app_length. cbn [length]. lia. }
  destruct (_ && _).
  { destruct oe as [e|]; [|exact A1]. destruct (_ && _); [|exact A1]. eapply adds_trans; [exact A1|].
    eapply adds_impl; [apply inner_short|now apply sync_quiet]. }
  destruct (_ && _); [|now apply FIN]. destruct (parent s1) as [p|]; [|now apply FIN].
  destruct (match oe with Some _ => _ | None => _ end); [|now apply FIN].
  pose proof (forward_short (S (length (w_router w))) h1 w1 (h_src h) (e_id p) s1) as A2.
  pose proof (level_forward false h1 w1 (h_src h) (e_id p) s1) as L2. pose proof (FI h1 (e_id p) s1 I1) as I2.
  destruct (forward false h1 w1 (h_src h) (e_id p) s1) as [[[s2 res2] oe2] h2]. cbn [fst snd] in *.
  apply FIN; [eapply level_trans; eauto|exact I2|eapply adds_trans; eauto].
Qed.
Lemma reply_router s c k m w l : reachable s -> m_body m = BData false w -> log (recv_item c (RMsg k m) s) = l ++ log s ->
  forall m' w', In m' (replies l) -> m_body m' = BData true w' -> (length (w_router w') <= S (length (w_router w)))%nat.
Proof.
  intros R B L m' w' M B'.
  assert (A : adds (short (S (length (w_router w)))) s (recv_item c (RMsg k m) s)).
  { cbn [recv_item]. cbv zeta. rewrite stamp_pull, on_recv_eq. set (s1 := on_c c _ s).
    eapply adds_trans; [apply (adds_same _ s s1); reflexivity|]. eapply adds_trans.
    - assert (X : adds (short (S (length (w_router w)))) s1 (fst (dispatch_msg c (stamp s c m) s1))); [|exact X].
      unfold dispatch_msg. rewrite stamp_body, B. apply data_req_short. now apply Inv_pull, reachable_Inv.
    - eapply adds_impl; [|apply qt_after]. intros t T. now apply inner_short, ordinary_inner. }
  destruct A as (l' & L' & F). rewrite L in L'. apply app_inv_tail in L' as <-. rewrite Forall_forall in F.
  apply in_replies in M as (c' & n & z & w2 & T & B2). apply F in T. cbn [short] in T. now apply T.
Qed.
Lemma spread_routers (P : node -> Prop) T m0 w0 fl n d r : (forall s, P s -> x_ttl (cf s) <= T) -> m_body m0 = BData false w0 -> spread P m0 fl n d r ->
  Forall (fun m => forall rsp w, m_body m = BData rsp w -> (length (w_router w) <= n + length (w_router w0))%nat) fl /\
  Forall (fun m => forall rsp w, m_body m = BData rsp w -> (length (w_router w) <= S (n + length (w_router w0)))%nat) r.
Proof.
  intros PT B S. split.
  { pose proof (spread_way P T m0 w0 fl n d r PT B S) as [W _ _ _ _ _]. destruct W as [->|(_ & m & -> & _ & w1 & w & x & B1 & B2 & RO & XN)]; [constructor|].
    constructor; [|constructor]. intros rsp w' B'. rewrite B2 in B'. injection B' as <- <-. rewrite B in B1. injection B1 as <-. rewrite RO, app_length. lia. }
  induction S as [|l1 m l2 n d r S IH|l1 m l2 n d r s c k l S IH R PS L]; [constructor|exact IH|].
  pose proof (spread_way P T m0 w0 _ n d r PT B S) as [W _ _ _ _ _]. destruct W as [W|(_ & m' & E & A & w1 & w & x & B1 & B2 & RO & XN)]; [now destruct l1|].
  apply one_split in E as (-> & -> & ->). rewrite B in B1. injection B1 as <-.
  apply Forall_app. split.
  - rewrite Forall_forall. intros y Y rsp w2 BY. pose proof (in_replies _ _ Y) as (_ & _ & _ & w3 & _ & B3). rewrite B3 in BY. injection BY as <- <-.
    pose proof (reply_router s c k m' w l R B2 L y w3 Y B3) as X. rewrite RO, app_length in X. lia.
  - eapply Forall_impl; [|exact IH]. intros y Y rsp w2 BY. specialize (Y rsp w2 BY). lia.
Qed.
Theorem C42_travel T s to ty b want q c m0 k z fl n d r rsp w : reachable s -> gained s (fst (send_data to ty b want q s)) (TSend c m0 k z) ->
  m_body m0 = BData rsp w -> x_msg (cf s) < 2 ^ 31 -> T <= 91 -> spread (fun s => x_ttl (cf s) <= T) m0 fl n d r -> Forall (fits (x_msg (cf s))) (fl ++ r).
Proof.
  intros R G B M31 T91 S. destruct (sent_router _ _ _ _ _ _ _ _ _ _ R G _ _ B) as (-> & RO & CO & CL).
  pose proof (C26_requests T m0 w fl n d r B S) as (HOPS & _ & _ & AL & RE).
  pose proof (spread_routers _ T m0 w fl n d r (fun s H => H) B S) as [F1 F2]. rewrite RO in *. cbn [length] in *.
  rewrite Forall_forall in *. intros m M rsp' w' B'.
  assert (X : (length (w_router w') <= 92)%nat /\ w_content w' = b).
  { apply in_app_iff in M as [M|M].
    - specialize (F1 m M rsp' w' B'). split; [lia|]. specialize (AL m ltac:(apply in_app_iff; now left)).
      destruct AL as (_ & _ & _ & _ & b' & w1 & w2 & A1 & A2 & _ & _ & A3 & _). rewrite B in A1. injection A1 as <- <-. rewrite B' in A2. injection A2 as _ <-. congruence.
    - specialize (F2 m M rsp' w' B'). split; [lia|]. specialize (RE m M).
      destruct RE as (_ & _ & _ & w1 & w2 & A1 & A2 & _ & _ & A3 & _). rewrite B in A1. injection A1 as <-. rewrite B' in A2. injection A2 as _ <-. congruence. }
  destruct X as [X1 X2]. pose proof (C42_size (m_head m) rsp' w') as SZ. rewrite X2 in SZ.
  assert (X24 : 2 ^ 24 = 16777216) by reflexivity. specialize (SZ ltac:(lia) ltac:(lia)). lia.
Qed.
(** What fits is not refused for its size. *)
Theorem C42_not_refused s other c m rsp w : m_body m = BData rsp w -> x_size (cf s) = wire_size other -> fits (x_msg (cf s)) m ->
  k_st (cs s c) = Connected -> k_kind (cs s c) = KSock \/ k_kind (cs s c) = KSend -> exists n z, log (fst (send_on c m s)) = TSend c m n z :: log s.
Proof.
  intros B X F ST K. unfold send_on. rewrite X. specialize (F rsp w B).
  assert (SZ : (x_msg (cf s) + 1024 <? wire_size other m) = false) by (apply N.ltb_ge; unfold wire_size; now rewrite B). rewrite SZ.
  unfold push. cbv zeta. set (s1 := on_c c _ s).
  assert (E1 : k_st (cs s1 c) = Connected) by (unfold s1, on_c, upd; cbn [cs set_cs]; now rewrite N.eqb_refl).
  assert (E2 : k_kind (cs s1 c) = k_kind (cs s c)) by (unfold s1, on_c, upd; cbn [cs set_cs]; now rewrite N.eqb_refl).
  rewrite E1, E2. destruct K as [-> | ->]; unfold take_orc; destruct (orc s1) as [|y o]; do 2 eexists; destruct (_ <? 0)%Z; reflexivity.
Qed.
(** With a ttl of 200 a request that was forwarded less often, with a payload of
    [msg_size] bytes, is refused for its size; so is the response that says so.  The
    same node passes the same payload on when its list is short. *)
Definition set_size ttl msg x :=
  {| x_nets := x_nets x; x_parent := x_parent x; x_loop := x_loop x; x_ttl := ttl; x_ping := x_ping x; x_retry := x_retry x;
     x_first := x_first x; x_tol := x_tol x; x_backlog := x_backlog x; x_msg := msg; x_tokens := x_tokens x;
     x_pid := x_pid x; x_host := x_host x; x_mac := x_mac x; x_size := wire_size (fun _ => 40); x_cmd := x_cmd x; x_reply := x_reply x |}.
Definition boot2 x := [EInit 65536 x; EStart 100; EListen adr; EIo (IAccepted adr2);
  EIo (IRecv 2 (RMsg 10 (msg0 65540 (BReg false (reg0 65540 []))))); EIo (IConnected 3 0);
  EIo (IAccepted adr2); EIo (IRecv 4 (RMsg 10 (msg0 65541 (BReg false (reg0 65541 [])))))].
Definition load n := {| w_from := 65540; w_to := 65541; w_router := repeat (2 ^ 63) n; w_content := repeat 7 64; w_flags := 1 |}.
Theorem C42_large_ttl_refuted : exists s, run fuel0 (boot2 (set_size 200 64 cfg0)) new_node = Some s /\
  (exists l, log (recv_item 2 (RMsg 1100 (msg0 65540 (BData false (load 100)))) s) = l ++ log s /\ passed_on false l = [] /\ replies l = [] /\ handed l = []) /\
  (exists l m, log (recv_item 2 (RMsg 150 (msg0 65540 (BData false (load 3)))) s) = l ++ log s /\ passed_on false l = [m]).
Proof.
  eapply (witness_run _ (fun s => (log s, log (recv_item 2 (RMsg 1100 (msg0 65540 (BData false (load 100)))) s),
     log (recv_item 2 (RMsg 150 (msg0 65540 (BData false (load 3)))) s)))); [vm_compute; reflexivity|].
  intros s E. pose proof (f_equal fst (f_equal fst E)) as E1. pose proof (f_equal snd (f_equal fst E)) as E2. pose proof (f_equal snd E) as E3. cbn [fst snd] in E1, E2, E3. split.
  - eexists. split; [added E1 E2|]. repeat split.
  - do 2 eexists. split; [added E1 E3|reflexivity].
Qed.
(** Receivers on memory channels have a smaller buffer: [node::init] (node.cpp 215-216)
    allocates [msg_size] plus the size of a block header plus 64 bytes, and that is the
    capacity passed to the receive function (connection.cpp 717, 782).  A message that
    the sender may send but that is larger is never received, and nothing after it. *)
Definition recv_room (M : N) : N := M + head_size + 64.
Lemma queue_stuck n p m cap os : forall q, cap < blen m -> (forall c, In (Recv c) os -> c = cap) -> received (fst (queue_run n p (m :: q) os)) = [].
Proof.
  induction os as [|o os IH]; intros q L A; [reflexivity|]. cbn [queue_run]. destruct (queue_step n p (m :: q) o) as [x q1] eqn:Q.
  assert (X : (exists q', q1 = m :: q') /\ received [x] = []).
  { destruct o as [b|c]; cbn [queue_step] in Q.
    - destruct (_ =? 0); [injection Q as <- <-; split; [now eexists|reflexivity]|]. destruct (_ <=? n); injection Q as <- <-; (split; [now eexists|reflexivity]).
    - rewrite (A c (or_introl eq_refl)) in Q. apply N.ltb_lt in L. rewrite L in Q. injection Q as <- <-. split; [now eexists|reflexivity]. }
  destruct X as [[q' ->] X]. specialize (IH q' L (fun c H => A c (or_intror H))). destruct (queue_run n p (m :: q') os) as [xs q2]. cbn [fst] in *.
  destruct x as [code|code w0 sz]; cbn [received] in *; [exact IH|]. now rewrite app_nil_r in X; rewrite X.
Qed.
Theorem C42_memory_receiver_stuck hash len ch m os M : mem_init len = (OK, Some ch) -> len < 2 ^ 48 -> blen m < 2 ^ 63 -> recv_room M < blen m ->
  (forall x, In (CSend x) os -> blen x < 2 ^ 63) -> (forall clk c, In (CRecv clk c) os -> c = recv_room M) ->
  exists r xs c', chan_run hash ch (CSend m :: os) = Some (Sent r :: xs, c') /\ (r = OK -> received xs = []).
Proof.
  intros HI HL HM BIG HS HR.
  destruct (C06_C07_bounded_queue hash len ch (CSend m :: os) HI HL) as [c' E]; [intros x [[= <-]|X]; auto|].
  set (n := (len - 4096) / 272) in *. cbn [map op_of queue_run queue_step] in E.
  assert (NZ : (blen m =? 0) = false) by (apply N.eqb_neq; lia). rewrite NZ in E. cbn [app] in E.
  destruct (used [] + cost m + default_protect n + 1 <=? n).
  - pose proof (queue_stuck n (default_protect n) m (recv_room M) (map op_of os) [] BIG) as Q.
    destruct (queue_run n (default_protect n) [m] (map op_of os)) as [xs q]. cbn [fst] in *. exists OK, xs, c'. split; [exact E|]. intros _. apply Q.
    intros c X. apply in_map_iff in X as (o & O & X). destruct o as [y|clk y]; [discriminate|]. cbn in O. injection O as <-. now apply (HR clk).
  - destruct (queue_run n (default_protect n) [] (map op_of os)) as [xs q]. cbn [fst] in *. exists E_BUFF_LIMIT, xs, c'. split; [exact E|discriminate].
Qed.
(** Such a message: a payload of [msg_size] bytes, seen by five nodes with large ids. *)
Definition deep := {| w_from := 2 ^ 63; w_to := 2 ^ 63 + 1; w_router := repeat (2 ^ 63) 5; w_content := repeat 7 1000; w_flags := 0 |}.
Definition deep_head := {| h_ver := 2; h_type := 0; h_ret := 0; h_seq := 5; h_src := 2 ^ 63 |}.
Theorem C42_memory_receiver_refuted : blen (w_content deep) = 1000 /\ blen (enc_data deep_head false deep) <= 1000 + 1024 /\
  recv_room 1000 < blen (enc_data deep_head false deep) /\
  exists ch, mem_init 65536 = (OK, Some ch) /\ fst (mem_send (fun _ => 0) ch (enc_data deep_head false deep)) = OK.
Proof.
  split; [reflexivity|]. split; [vm_compute; discriminate|]. split; [vm_compute; reflexivity|]. eexists. split; [reflexivity|]. vm_compute. reflexivity.
Qed.
Example C42_case : exists s c m k z, reachable s /\ gained s (fst (send_data 65540 7 [1;2] false 0 s)) (TSend c m k z) /\ x_msg (cf s) < 2 ^ 31 /\
  exists rsp w, m_body m = BData rsp w.
Proof.
  observe (fun s => (x_msg (cf s), log s, log (fst (send_data 65540 7 [1;2] false 0 s)))) (boot 65540 []).
  injection E as E1 E2 E3. exists s. do 4 eexists. split; [exact R|]. split; [gains E2 E3|]. rewrite E1. split; [reflexivity|]. now do 2 eexists.
Qed.
Print Assumptions C42_size.
Print Assumptions C42_travel.
Print Assumptions C42_not_refused.
Print Assumptions C42_large_ttl_refuted.
Print Assumptions C42_memory_receiver_stuck.
Print Assumptions C42_memory_receiver_refuted.
