(** Choosing and opening connections: C40, C45. *)
From Coq Require Import Sorted.
From Verif Require Import Base Subnet Route RouteProof AddressSpec Address AddressProof NodeTypes NodeConn NodeCore NodeMsg Node
  NodeFrame NodeReset NodeInv NodeKeep NodeSteps NodeReach NodeSpec NodeLog NodeTrace NodeHandle NodeExample.
Local Open Scope N_scope.
Ltac Zify.zify_post_hook ::= idtac.

(** ** C40: the connection used for data *)
(** [k_sa]: in-process memory; [k_sh]: only between processes of one host. *)
Definition same_machine (s : node) (x : ep) : Prop := d_host (es s (e_ref x)) = d_host (es s (my_ref s)).
Definition fits (s : node) (x : ep) (c : N) : Prop :=
  k_st (cs s c) = Connected /\ (k_sh (cs s c) = true -> same_machine s x).
(** In-process memory before anything else, then what stays on the host. *)
Definition faster (s : node) (c c' : N) : Prop :=
  (k_sa (cs s c) = true /\ k_sa (cs s c') = false) \/
  (k_sa (cs s c) = k_sa (cs s c') /\ k_sh (cs s c) = true /\ k_sh (cs s c') = false).

Lemma connected_st s c : is_connected s c = true <-> k_st (cs s c) = Connected.
Proof. unfold is_connected. apply cst_eqb_true. Qed.
Lemma bytes_eqb_true a : forall b, bytes_eqb a b = true <-> a = b.
Proof.
  induction a as [|x a IH]; intros [|y b]; cbn; try (split; (reflexivity || discriminate)).
  rewrite andb_true_iff, N.eqb_eq, IH. split; [intros [-> ->]; reflexivity|now intros [= -> ->]].
Qed.
Lemma usable_fits s x c : usable s (e_ref x) c = true <-> fits s x c.
Proof.
  unfold usable, fits, same_machine. cbv zeta. rewrite andb_true_iff, connected_st.
  destruct (bytes_eqb (d_host (es s (e_ref x))) (d_host (es s (my_ref s)))) eqn:H.
  - apply bytes_eqb_true in H. destruct (_ =? _), (k_sa _), (k_sh _); cbn; intuition congruence.
  - assert (NE : d_host (es s (e_ref x)) <> d_host (es s (my_ref s))) by (intro E; apply bytes_eqb_true in E; congruence).
    destruct (k_sa _), (k_sh _); cbn; intuition congruence.
Qed.
Lemma faster_score s c c' : faster s c c' <-> score s c < score s c'.
Proof. unfold faster, score. destruct (k_sa (cs s c)), (k_sa (cs s c')), (k_sh (cs s c)), (k_sh (cs s c')); cbn; split; intros; try lia; intuition congruence. Qed.
Lemma ins_sorted s c l : Sorted (fun a b => score s a <= score s b) l -> Sorted (fun a b => score s a <= score s b) (ins_conn s c l).
Proof.
  induction 1 as [|x l S IH H]; cbn [ins_conn]; [repeat constructor|]. destruct (N.leb_spec (score s c) (score s x)).
  - constructor; [now constructor|]. now constructor.
  - constructor; [exact IH|]. destruct l as [|y l]; cbn [ins_conn]; [constructor; lia|]. inversion H; subst. destruct (_ <=? _); constructor; lia.
Qed.
Lemma sort_sorted s l : StronglySorted (fun a b => score s a <= score s b) (sort_conns s l).
Proof.
  apply Sorted_StronglySorted; [intros a b c; lia|]. unfold sort_conns. induction l as [|x l IH]; [constructor|]. now apply ins_sorted.
Qed.
Lemma sort_mem s l c : In c (sort_conns s l) <-> In c l.
Proof.
  assert (I : forall x l, In c (ins_conn s x l) <-> x = c \/ In c l).
  { intros x k. induction k as [|y k IH]; [reflexivity|]. cbn [ins_conn]. destruct (_ <=? _); [reflexivity|]. cbn [In]. rewrite IH. tauto. }
  unfold sort_conns. induction l as [|x l IH]; [reflexivity|]. cbn [fold_right In]. rewrite I, IH. reflexivity.
Qed.
Lemma find_best {A} (f : A -> bool) (w : A -> N) l x : StronglySorted (fun a b => w a <= w b) l -> find f l = Some x ->
  In x l /\ f x = true /\ forall y, In y l -> f y = true -> w x <= w y.
Proof.
  induction 1 as [|a l S IH F]; [discriminate|]. cbn [find]. destruct (f a) eqn:E.
  - intros [= <-]. split; [now left|]. split; [exact E|]. intros y [<-|Y] _; [lia|]. rewrite Forall_forall in F. now apply F.
  - intro H. destruct (IH H) as (A1 & A2 & A3). split; [now right|]. split; [exact A2|]. intros y [<-|Y] B; [congruence|auto].
Qed.
(** The full claim would add: [k_sa (cs s c) = true -> d_pid] equal. *)
Theorem C40_data_connection_partial s x : reachable s -> e_ref x <> my_ref s ->
  match data_conn s x true with
  | Some c =>
      k_bind (cs s c) = Some (e_ref x) /\ k_st (cs s c) = Connected /\
      ((In c (d_data (es s (e_ref x))) /\ (k_sh (cs s c) = true -> same_machine s x) /\
        forall c', In c' (d_data (es s (e_ref x))) -> fits s x c' -> ~ faster s c' c) \/
       (d_ctrl (es s (e_ref x)) = Some c /\ forall c', In c' (d_data (es s (e_ref x))) -> ~ fits s x c'))
  | None => (forall c', In c' (d_data (es s (e_ref x))) -> ~ fits s x c') /\
      forall c, d_ctrl (es s (e_ref x)) = Some c -> k_st (cs s c) <> Connected
  end.
Proof.
  intros R NE. pose proof (reachable_Inv s R) as I. unfold data_conn. apply N.eqb_neq in NE. rewrite NE.
  destruct (find _ _) as [c|] eqn:F.
  - destruct (find_best _ (score s) _ _ (sort_sorted s _) F) as (A & B & C). apply sort_mem in A. apply usable_fits in B. destruct B as [B1 B2].
    split; [apply (I_bind s I); unfold conns; destruct (d_ctrl _); [now right|exact A]|]. split; [exact B1|]. left. split; [exact A|]. split; [exact B2|].
    intros c' D FT. rewrite faster_score. apply N.le_ngt, C; [now apply sort_mem|now apply usable_fits].
  - assert (NF : forall c', In c' (d_data (es s (e_ref x))) -> ~ fits s x c').
    { intros c' D FT. apply usable_fits in FT. rewrite (find_none _ _ F c') in FT; [discriminate|now apply sort_mem]. }
    unfold ctrl_conn. rewrite NE. destruct (d_ctrl (es s (e_ref x))) as [c|] eqn:K.
    + destruct (is_connected s c) eqn:CN.
      * apply connected_st in CN. split; [apply (I_bind s I); unfold conns; rewrite K; now left|]. split; [exact CN|]. right. now split.
      * split; [exact NF|]. intros c0 [= <-] CN'. apply connected_st in CN'. congruence.
    + split; [exact NF|]. discriminate.
Qed.
Example C40_case : exists s x, reachable s /\ e_ref x <> my_ref s /\ data_conn s x true = Some 3 /\ d_ctrl (es s (e_ref x)) = Some 2.
Proof.
  observe (fun s => (d_ep (es s 2), my_ref s, data_conn s {| e_ref := 2; e_id := 0; e_subs := [] |} true, d_ctrl (es s 2))) (boot 65540 []).
  injection E as E1 E2 E3 E4. exists s, {| e_ref := 2; e_id := 0; e_subs := [] |}. cbn [e_ref]. rewrite E2. now repeat split.
Qed.
(** The peer runs in another process of the same host; an in-process memory channel is
    chosen for it. *)
Definition reg_here id := {| r_id := id; r_pid := 9; r_host := [1]; r_chans := [adr]; r_keys := []; r_nets := [] |}.
Theorem C40_data_connection_refuted : exists s x c, reachable s /\ data_conn s x true = Some c /\ k_sa (cs s c) = true /\
  d_host (es s (e_ref x)) = d_host (es s (my_ref s)) /\ d_pid (es s (e_ref x)) <> d_pid (es s (my_ref s)).
Proof.
  set (x := {| e_ref := 2; e_id := 0; e_subs := [] |}).
  observe (fun s => (my_ref s, data_conn s x true, k_sa (cs s 4), d_host (es s 2), d_host (es s 1), d_pid (es s 2), d_pid (es s 1)))
    [EInit 65536 cfg0; EStart 100; EListen adr; EIo (IAccepted adr2);
     EIo (IRecv 2 (RMsg 10 (msg0 65540 (BReg false (reg_here 65540))))); EIo (IConnected 3 0); EConnectEp adr_mem 65540].
  injection E as E1 E2 E3 E4 E5 E6 E7. exists s, x, 4. subst x. cbn [e_ref]. rewrite E1, E3, E4, E5, E6, E7. repeat split; trivial. discriminate.
Qed.

(** ** C45: connect *)
(** Equality of characters without case, on the 26 letters. *)
Definition same_char (a b : N) : Prop := a = b \/ (65 <= a <= 90 /\ b = a + 32) \/ (65 <= b <= 90 /\ a = b + 32).
Definition begins (p a : bytes) : Prop := exists q r, a = q ++ r /\ Forall2 same_char p q.
Lemma lower_same a b : AddressSpec.lower a = AddressSpec.lower b -> same_char a b.
Proof.
  unfold AddressSpec.lower, same_char.
  destruct (N.leb_spec 65 a), (N.leb_spec a 90), (N.leb_spec 65 b), (N.leb_spec b 90); cbn [andb]; intro; lia.
Qed.
Lemma prefix_begins p : forall a, prefix_nocase p a = true -> begins p a.
Proof.
  induction p as [|x p IH]; intros a H; [now exists [], a|]. destruct a as [|y a]; [discriminate|]. cbn [prefix_nocase] in H.
  apply andb_prop in H. destruct H as [H1 H2]. apply N.eqb_eq in H1. destruct (IH a H2) as (q & r & -> & F).
  exists (y :: q), r. split; [reflexivity|]. constructor; [now apply lower_same|exact F].
Qed.
Lemma prefix_refl p : prefix_nocase p p = true. Proof. induction p as [|x p IH]; [reflexivity|]. cbn [prefix_nocase]. now rewrite N.eqb_refl. Qed.
(** The address an attempt records: the one asked for, or loopback for "any". *)
Definition target (a b : bytes) : Prop :=
  b = a \/ exists p, parse_address a = Parsed p /\
    ((a_host p = any4 /\ b = a_address (build_address s_ipv4 loop4 (a_port p))) \/
     (a_host p = any6 /\ b = a_address (build_address s_ipv6 loop6 (a_port p)))).
(** An attempt that will report: the transport has been asked to connect. *)
Definition attempt (s : node) (c : N) (a : bytes) : Prop := In c (pend s) /\ k_st (cs s c) = Connecting /\ target a (k_addr (cs s c)).
Lemma parse_scheme a p : parse_address a = Parsed p -> exists n, a_scheme p = firstn n a.
Proof.
  unfold parse_address. destruct (find_first a) as [se|]; [|discriminate]. cbv zeta.
  match goal with |- context [match ?x with None => Undefined | _ => _ end] => destruct x end; [|discriminate].
  destruct (_ <? _)%nat; [discriminate|]. intros [= <-]. cbn [a_scheme]. eauto.
Qed.
Lemma prefix_firstn p : forall n a, prefix_nocase p (firstn n a) = true -> prefix_nocase p a = true.
Proof.
  induction p as [|x p IH]; intros n a H; [reflexivity|]. destruct n, a; try discriminate. cbn [firstn prefix_nocase] in *.
  apply andb_prop in H. destruct H as [H1 H2]. rewrite H1. cbn. now apply (IH n).
Qed.
Lemma parse_begins w a p : parse_address a = Parsed p -> ~ begins w a -> prefix_nocase w (a_scheme p) = false.
Proof.
  intros P N. destruct (prefix_nocase w (a_scheme p)) eqn:E; [|reflexivity]. destruct (parse_scheme a p P) as [n F]. rewrite F in E.
  elim N. apply prefix_begins. now apply (prefix_firstn w n).
Qed.
Lemma create_frame s : exists l, fst (conn_create s) = set_connecting l (set_nextc (nextc s + 1) (set_cs (upd (cs s) (nextc s) no_conn) s)).
Proof.
  unfold conn_create. cbn [fst]. unfold add_timer. destruct (nst _); eexists; reflexivity.
Qed.
Lemma C45_fresh a s s' : ~ begins s_mem a -> ~ begins s_shm a ->
  (let (s1, c) := conn_create s in
   if prefix_nocase p_mem a || prefix_nocase p_shm a then (s1, E_ACCESS_DENY)
   else let (s2, r) := conn_connect c a s1 in if (r <? 0)%Z then (s2, r) else (s2, E_OK)) = (s', E_OK) ->
  nextc s' = nextc s + 1 /\ attempt s' (nextc s) a /\ log s' = log s /\ forall c, c <> nextc s -> cs s' c = cs s c.
Proof.
  intros NM NS H. destruct (create_frame s) as [l CF]. destruct (conn_create s) as [s1 c1] eqn:CC. cbn [fst] in CF.
  assert (c1 = nextc s) by (unfold conn_create in CC; now injection CC). subst c1. set (c := nextc s) in *. clear CC.
  destruct (_ || _); [discriminate|].
  assert (K : cs s1 c = no_conn) by (subst s1; cbn; unfold upd; now rewrite N.eqb_refl).
  assert (KO : forall c', c' <> c -> cs s1 c' = cs s c').
  { intros c' NE. subst s1. cbn. unfold upd. destruct (N.eqb_spec c' c); [contradiction|reflexivity]. }
  assert (L : log s1 = log s) by (subst s1; reflexivity). assert (NX : nextc s1 = c + 1) by (subst s1; reflexivity). clear CF.
  unfold conn_connect in H. rewrite K in H. cbn [k_st no_conn] in H. destruct (parse_address a) as [|p| |] eqn:P; try discriminate.
  rewrite (parse_begins _ a p P NM), (parse_begins _ a p P NS) in H. cbn [orb] in H.
  match type of H with context [set_status c Connecting ?u] => set (s2 := u) in H end.
  assert (S2 : k_st (cs s2 c) = Disconnected /\ target a (k_addr (cs s2 c)) /\ log s2 = log s1 /\ nextc s2 = nextc s1 /\ forall c', c' <> c -> cs s2 c' = cs s1 c').
  { assert (Q : forall f u, log (on_c c f u) = log u /\ nextc (on_c c f u) = nextc u /\ cs (on_c c f u) c = f (cs u c) /\ forall c', c' <> c -> cs (on_c c f u) c' = cs u c').
    { intros f u. unfold on_c. cbn. unfold upd. rewrite N.eqb_refl. repeat split. intros c' NE. destruct (N.eqb_spec c' c); [contradiction|reflexivity]. }
    destruct (Q (set_k_addr a) s1) as (A1 & A2 & A3 & A4).
    assert (Q2 : forall f, k_st (f (set_k_addr a no_conn)) = Disconnected -> target a (k_addr (f (set_k_addr a no_conn))) ->
      let u := on_c c f (on_c c (set_k_addr a) s1) in
      k_st (cs u c) = Disconnected /\ target a (k_addr (cs u c)) /\ log u = log s1 /\ nextc u = nextc s1 /\ forall c', c' <> c -> cs u c' = cs s1 c').
    { intros f F1 F2. cbv zeta. destruct (Q f (on_c c (set_k_addr a) s1)) as (B1 & B2 & B3 & B4).
      rewrite B1, B2, B3, A1, A2, A3, K. split; [exact F1|]. split; [exact F2|]. split; [reflexivity|]. split; [reflexivity|].
      intros c' NE. now rewrite B4, A4. }
    subst s2. destruct (prefix_nocase s_ipv4 _ && _) eqn:C4; [|destruct (prefix_nocase s_ipv6 _ && _) eqn:C6; [|destruct (prefix_nocase s_unix _)]].
    1-3: apply Q2; [reflexivity|]; cbn [k_addr set_k_addr set_k_sh set_k_sa flags_of].
    - right. exists p. split; [exact P|]. left. apply andb_prop in C4. destruct C4 as [_ C4]. apply bytes_eqb_true in C4. now split.
    - right. exists p. split; [exact P|]. right. apply andb_prop in C6. destruct C6 as [_ C6]. apply bytes_eqb_true in C6. now split.
    - now left.
    - rewrite A1, A2, A3, K. split; [reflexivity|]. split; [now left|]. auto. }
  clearbody s2. destruct S2 as (S1 & S2 & S3 & S4 & S5).
  assert (S6 : set_status c Connecting s2 = on_c c (set_k_st Connecting) s2) by (unfold set_status; rewrite S1; reflexivity).
  rewrite S6 in H. clear S6.
  unfold take_orc in H.
  set (s3 := on_c c (set_k_st Connecting) s2) in H.
  assert (W : exists v, s' = set_pend (pend s3 ++ [c]) (set_orc v s3)).
  { destruct (orc s3) as [|z r] eqn:O; cbn in H.
    - injection H as <-. exists (orc s3). reflexivity.
    - destruct (z <? 0)%Z eqn:Z; [injection H as <- ->; discriminate|]. injection H as <-. now exists r. }
  destruct W as [v ->]. subst s3. unfold attempt. cbn. rewrite in_app_iff. unfold upd. rewrite N.eqb_refl. cbn.
  split; [congruence|]. split; [split; [right; now left|now split]|]. split; [congruence|].
  intros c' NE. destruct (N.eqb_spec c' c); [contradiction|]. rewrite S5, KO by exact NE. reflexivity.
Qed.
(** The full claim is the second case, for an old or a new attempt.  What holds: when
    nothing new is started, something unfinished whose recorded address begins like the
    requested one is waiting. *)
Theorem C45_connect_partial a s s' : reachable s -> connect a s = (s', E_OK) -> ~ begins s_mem a -> ~ begins s_shm a ->
  (s' = s /\ exists t c, In (t, c) (connecting s) /\ k_st (cs s c) <> Connected /\ begins (k_addr (cs s c)) a) \/
  (nextc s' = nextc s + 1 /\ attempt s' (nextc s) a /\ log s' = log s /\ forall c, c <> nextc s -> cs s' c = cs s c).
Proof.
  intros R H NM NS. pose proof (reachable_Inv s R) as I. unfold connect in H. destruct (nst s) eqn:NT; [discriminate| | | |].
  all: destruct (existsb (pending_to s a) (connecting s)) eqn:X;
    [injection H as <-; left; split; [reflexivity|]; apply existsb_exists in X; destruct X as ([t c] & IN & P); exists t, c; split; [exact IN|];
     unfold pending_to in P; apply andb_prop in P; destruct P as [P1 P2]; split; [|now apply prefix_begins];
     intro C; apply connected_st in C; cbn [snd] in P1; rewrite C in P1; discriminate|].
  all: right; eapply C45_fresh; eauto.
Qed.
(** An unfinished attempt at the same address is not repeated. *)
Theorem C45_no_second_attempt a s t c : nst s <> NCreated -> In (t, c) (connecting s) -> k_st (cs s c) <> Connected -> k_addr (cs s c) = a ->
  connect a s = (s, E_OK).
Proof.
  intros NT IN ST A. unfold connect. assert (X : existsb (pending_to s a) (connecting s) = true).
  { apply existsb_exists. exists (t, c). split; [exact IN|]. unfold pending_to. cbn [snd]. rewrite A, prefix_refl.
    destruct (is_connected s c) eqn:E; [apply connected_st in E; contradiction|reflexivity]. }
  rewrite X. destruct (nst s); [contradiction|reflexivity..].
Qed.
Definition adr80 : bytes := adr ++ [48].
Example C45_case : exists s, reachable s /\ connecting s = [] /\ snd (connect adr s) = E_OK /\ ~ begins s_mem adr /\ ~ begins s_shm adr /\
  attempt (fst (connect adr s)) 1 adr /\ nst (fst (connect adr s)) <> NCreated /\ connecting (fst (connect adr s)) = [(130, 1)].
Proof.
  observe (fun s => (connecting s, snd (connect adr s), pend (fst (connect adr s)), k_st (cs (fst (connect adr s)) 1), k_addr (cs (fst (connect adr s)) 1), nst (fst (connect adr s)), connecting (fst (connect adr s)))) [EInit 65536 cfg0; EStart 100].
  injection E as E1 E2 E3 E4 E5 E6 E7. exists s. split; [exact R|]. split; [exact E1|]. split; [exact E2|].
  split; [intros (q & r & A & F); inversion F; subst; inversion A; subst; match goal with H : same_char _ _ |- _ => destruct H; lia end|].
  split; [intros (q & r & A & F); inversion F; subst; inversion A; subst; match goal with H : same_char _ _ |- _ => destruct H; lia end|].
  unfold attempt. rewrite E3, E4, E5, E6, E7. split; [split; [now left|]; split; [reflexivity|now left]|]. split; [discriminate|reflexivity].
Qed.
(** Port 80 is asked for while an attempt at port 8 is unfinished. *)
Theorem C45_prefix_refuted : exists s, reachable s /\ connect adr80 s = (s, E_OK) /\ pend s = [1] /\ k_addr (cs s 1) = adr /\ nextc s = 2.
Proof.
  observe (fun s => (pend s, k_addr (cs s 1), nextc s, nst s, connecting s, k_st (cs s 1))) [EInit 65536 cfg0; EStart 100; EConnect adr].
  injection E as E1 E2 E3 E4 E5 E6. exists s. split; [exact R|]. rewrite E1, E2, E3. split; [|now repeat split].
  unfold connect. rewrite E4, E5. unfold existsb, pending_to, is_connected. cbn [snd]. rewrite E2, E6. reflexivity.
Qed.
(** After a refused address every connect reports success and does nothing. *)
Theorem C45_refused_refuted : exists s, reachable s /\ pend s = [] /\ forall a, connect a s = (s, E_OK).
Proof.
  observe (fun s => (pend s, k_addr (cs s 1), nst s, connecting s, k_st (cs s 1))) [EInit 65536 cfg0; EStart 100; EConnect adr_mem].
  injection E as E1 E2 E3 E4 E5. exists s. split; [exact R|]. split; [exact E1|].
  intro a. unfold connect. rewrite E3, E4. unfold existsb, pending_to, is_connected. cbn [snd]. rewrite E2, E5. reflexivity.
Qed.
(** A connect to an address whose listen failed at once. *)
Theorem C45_failed_listen_refuted : exists s, reachable s /\ pend s = [] /\ lpend s = [] /\ connect adr s = (s, E_OK).
Proof.
  observe (fun s => (pend s, lpend s, k_addr (cs s 1), nst s, connecting s, k_st (cs s 1))) [EInit 65536 cfg0; EStart 100; EWorld [(-5)%Z] []; EListen adr].
  injection E as E1 E2 E3 E4 E5 E6. exists s. split; [exact R|]. split; [exact E1|]. split; [exact E2|].
  unfold connect. rewrite E4, E5. unfold existsb, pending_to, is_connected. cbn [snd]. rewrite E3, E6. reflexivity.
Qed.
Print Assumptions C40_data_connection_partial.
Print Assumptions C40_data_connection_refuted.
Print Assumptions C45_connect_partial.
Print Assumptions C45_no_second_attempt.
Print Assumptions C45_prefix_refuted.
Print Assumptions C45_refused_refuted.
Print Assumptions C45_failed_listen_refuted.
