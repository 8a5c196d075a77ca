(** Which connections a node opens: C69; when it recommends one: C70. *)
From Verif Require Import Base Subnet Route AddressSpec Address AddressProof NodeTypes NodeConn NodeCore NodeMsg Node
  NodeFrame NodeReset NodeInv NodeKeep NodeSteps NodeReach NodeSpec NodeLog NodeTrace NodeHandle NodeExample PropNodeMsg PropNodeConn
  NodeTime OpenSpec NodeOpen NodeSync NodeListen.
Local Open Scope N_scope.
Ltac Zify.zify_post_hook ::= idtac.

(** ** C69 *)
Lemma begins_prefix p a : begins p a -> prefix_nocase p a = true.
Proof.
  intros (q & r & -> & F). induction F as [|x y p q S F IH]; [reflexivity|]. cbn [prefix_nocase app]. rewrite IH, andb_true_r. apply N.eqb_eq.
  unfold same_char in S. unfold AddressSpec.lower. destruct (N.leb_spec 65 x), (N.leb_spec x 90), (N.leb_spec 65 y), (N.leb_spec y 90); cbn [andb]; lia.
Qed.
Lemma begins_iff p a : begins p a <-> prefix_nocase p a = true.
Proof. split; [apply begins_prefix|apply prefix_begins]. Qed.
Lemma process_iff a : is_local_process (Some a) = true <-> in_process a.
Proof. unfold in_process. rewrite begins_iff. destruct a as [|x a]; [split; discriminate|reflexivity]. Qed.
Lemma host_iff a : is_local_host (Some a) = true <-> on_host a.
Proof.
  unfold on_host, in_process. rewrite !begins_iff. destruct a as [|x a]; [split; [discriminate|intros [H|[H|H]]; discriminate H]|].
  unfold is_local_host, is_local_process. cbn [non_empty]. change [109; 101; 109; 58] with p_mem. change [115; 104; 109; 58] with p_shm. change [117; 110; 105; 120; 58] with p_unix.
  destruct (prefix_nocase p_mem _), (prefix_nocase p_shm _), (prefix_nocase p_unix _); intuition congruence.
Qed.
Lemma stream_iff a : a <> [] -> is_simplex (Some a) = false <-> stream a.
Proof.
  intro N. unfold stream, in_process. rewrite !begins_iff. destruct a as [|x a]; [contradiction|]. unfold is_simplex. cbn [non_empty].
  change [109; 101; 109; 58] with p_mem. change [115; 104; 109; 58] with p_shm.
  destruct (prefix_nocase p_mem _), (prefix_nocase p_shm _); intuition congruence.
Qed.
Lemma may_named x b : may (named x b) x b.
Proof.
  destruct b as [| | |[] r|a| |]; cbn; trivial.
  - intros a A [R1 R2]. rewrite host_iff in R1. rewrite process_iff in R2. auto.
  - intros S N. split; [reflexivity|now apply stream_iff].
Qed.
Lemma may_more (P P' : bytes -> Prop) x b : (forall a, P a -> P' a) -> may P x b -> may P' x b.
Proof. intro I. destruct b as [| | |[] r|a| |]; cbn; auto. Qed.
Lemma item_named (P : bytes -> Prop) x i : (forall a, item_names x i a -> P a) -> item_may P x i.
Proof. destruct i as [| |k m]; cbn; trivial. intro H. eapply may_more; [|apply may_named]. exact H. Qed.
Lemma io_named (P : bytes -> Prop) x i : (forall a, io_names x i a -> P a) -> io_may P x i.
Proof. destruct i; cbn; trivial; [auto|apply item_named]. Qed.
Lemma call_named s ev : call_may (names (cf s) ev) s ev.
Proof.
  destruct ev; cbn [call_may names]; try exact Logic.I; try reflexivity.
  - split; [now left|]. intros p i Hp Hi. apply item_named. intros a A. right. now exists p, i.
  - intros i Hi. apply io_named. intros a A. now exists i.
  - now apply io_named.
Qed.
(** [init] names nothing. *)
Lemma init_opens i x s s' n : nextc s = n -> fst (init i x s) = s' ->
  (forall c, c < n -> k_addr (cs s' c) = k_addr (cs s c)) /\ (forall c, n <= c -> c < nextc s' -> fine (fun _ => False) (k_addr (cs s' c))).
Proof.
  intros E <-. set (F := fun _ : bytes => False). unfold init. set (s0 := match nst s with NCreated => s | _ => reset s end).
  assert (K : ko F n s s0) by (subst s0; destruct (nst s); try apply ko_refl; apply ko_reset).
  assert (D : forall s1, ko F n (set_cf x s0) s1 -> (forall c, c < n -> k_addr (cs s1 c) = k_addr (cs s c)) /\ (forall c, n <= c -> c < nextc s1 -> fine F (k_addr (cs s1 c)))).
  { intros s1 K1. pose proof (O_nc _ _ _ _ K). split.
    - intros c L. rewrite (O_old _ _ _ _ K1) by (cbn [nextc set_cf]; lia || exact L). cbn [cs set_cf]. apply (O_old _ _ _ _ K); lia || exact L.
    - apply (O_new _ _ _ _ K1); [cbn [nextc set_cf]; lia|]. cbn [nextc set_cf cs]. apply (O_new _ _ _ _ K); [lia|]. intros c A B. lia. }
  clearbody s0. cbv zeta. destruct (endpoint_subnets i (x_nets x)) as [subs|]; [|apply D, ko_emit].
  pose proof (ko_ep_create F n i subs (x_pid x) (x_host x) (set_cf x s0)) as K1. destruct (ep_create _ _ _ _ _) as [s1 e]. cbn [fst] in *.
  apply D. eapply ko_trans; [exact K1|]. set (s2 := clear_ping _ _).
  apply (ko_trans F n s1 s2); [subst s2|now apply ko_intro]. eapply ko_trans; [|apply ko_clear_ping].
  eapply ko_trans; [apply (ko_intro F n s1 (set_self (Some e) s1)); auto|]. destruct (self _); [apply ko_ep_drop|apply ko_refl].
Qed.
(** Every connection that appears has no address or one that the call named, and keeps it. *)
Theorem C69_origin n ev s s' : step n ev s = Some s' ->
  (forall c, fresh s s' c -> k_addr (cs s' c) = [] \/ exists a, names (cf s) ev a /\ target a (k_addr (cs s' c))) /\
  (forall c, c < nextc s -> k_addr (cs s' c) = k_addr (cs s c)).
Proof.
  intro S. destruct (ko_step (names (cf s) ev) (nextc s) n ev s s' (N.le_refl _) (call_named s ev) S) as [(i & x & ->)|K].
  - unfold step, step_ret in S. cbn [option_map] in S. injection S as S. destruct (init_opens i x s s' (nextc s) eq_refl S) as [A B].
    split; [|exact A]. intros c [F1 F2]. destruct (B c F1 F2) as [C|(a & [] & _)]. now left.
  - split; [|now apply (O_old _ _ _ _ K)]. intros c [F1 F2]. apply (O_new _ _ _ _ K); auto; [lia|]. intros y A B. lia.
Qed.
(** Over a whole history. *)
Theorem C69_history n evs : forall s, run n evs new_node = Some s -> forall c, c < nextc s ->
  k_addr (cs s c) = [] \/
  exists evs1 ev evs2 s1 a, evs = evs1 ++ ev :: evs2 /\ run n evs1 new_node = Some s1 /\ names (cf s1) ev a /\ target a (k_addr (cs s c)).
Proof.
  induction evs as [|ev l IH] using rev_ind; intros s R c L; [injection R as <-; now left|].
  rewrite run_app in R. destruct (run n l new_node) as [s0|] eqn:E; [|discriminate]. cbn [run] in R.
  destruct (step n ev s0) as [s1|] eqn:S; [|discriminate]. injection R as <-. destruct (C69_origin n ev s0 s1 S) as [A B].
  destruct (N.lt_ge_cases c (nextc s0)) as [O|O].
  - rewrite (B c O). destruct (IH s0 eq_refl c O) as [X|(e1 & e & e2 & q & a & -> & H)]; [now left|right].
    exists e1, e, (e2 ++ [ev]), q, a. split; [now rewrite <- app_assoc|exact H].
  - destruct (A c (conj O L)) as [X|(a & H & T)]; [now left|right]. exists l, ev, [], s0, a. auto.
Qed.
(** A peer that has not registered cannot make the node open anything by recommending an
    address. *)
Theorem C69_stranger n s s' c k m a : k_st (cs s c) <> Connected -> m_body m = BConn a ->
  step n (EIo (IRecv c (RMsg k m))) s = Some s' -> forall x, fresh s s' x -> k_addr (cs s' x) = [].
Proof.
  intros NC MB S. unfold step, step_ret in S. cbn [option_map] in S. injection S as <-. set (F := fun _ : bytes => False).
  assert (K : ko F (nextc s) s (io_step (IRecv c (RMsg k m)) s)).
  { unfold io_step. destruct (nst s); try apply ko_refl; (destruct (k_kind (cs s c)); try apply ko_refl; unfold recv_item; cbv zeta;
    set (s1 := on_c c _ s); assert (K : ko F (nextc s) s s1) by (apply ko_on_c; reflexivity);
    assert (C : is_connected s1 c = false)
      by (destruct (is_connected s1 c) eqn:E; [elim NC; apply connected_st in E; subst s1; rewrite cs_on_c, N.eqb_refl in E; exact E|reflexivity]);
    clearbody s1; eapply ko_trans; [exact K|]; unfold on_recv, dispatch_msg;
    assert (MB' : m_body (stamp s1 c m) = BConn a) by (unfold stamp; destruct (k_bind _); [destruct (_ =? 0)|]; exact MB);
    rewrite MB'; cbv zeta; unfold conn_syn; rewrite C; cbn [negb];
    destruct (_ <? ver)%Z; apply ko_fault_of). }
  intros x [F1 F2]. destruct (O_new _ _ _ _ K (N.le_refl _)) with (c := x) as [X|(b & [] & _)]; trivial. intros y A B. lia.
Qed.

(** ** C70 *)
Lemma plain_advice t c a : plain t -> ~ advises t c a.
Proof. intros P (m & k & z & -> & B). unfold plain, is_sync in P. rewrite B in P. discriminate P. Qed.
Lemma ok_asking i : ~ asking i -> ok_item i.
Proof.
  destruct i as [| |k m]; cbn; trivial. unfold ok_msg, asks. destruct (m_body m) as [[] w| | | | | |]; trivial. intro H. elim H. now exists w.
Qed.
(** Nothing but received data makes a node recommend an address. *)
Theorem C70_only_for_data n ev s s' : step n ev s = Some s' -> ~ brings ev -> forall t c a, added s s' t -> ~ advises t c a.
Proof.
  intros S B t c0 a (l & E & I). assert (O : ok_call ev).
  { destruct ev as [| | | | | | | | | |now feed|ios|i|]; cbn; trivial.
    - intros p i P J. apply ok_asking. intro A. apply B. now exists p, i.
    - intros i J. destruct i; cbn; trivial. apply ok_asking. intro A. apply B. now exists c, i.
    - destruct i; cbn; trivial. apply ok_asking. exact B. }
  destruct (ks_step plain (fun t P => P) n ev s s' O S) as (l' & E' & F).
  assert (l = l') by (apply (app_inv_tail (log s)); congruence). subst l'.
  rewrite Forall_forall in F. now apply plain_advice, F.
Qed.
Ltac no := let Z := fresh in intro Z; exfalso; apply Z; reflexivity.
Lemma forward_hop rsp h w f t s : let '(s1, res, oe, h1) := forward rsp h w f t s in (0 <= res)%Z -> exists e, oe = Some e /\ next_hop s t = Some e.
Proof.
  unfold forward. destruct (t =? 0); [no|]. destruct (_ =? t); [no|].
  unfold remote. destruct (self s); [|no].
  destruct (nst s); [no|..];
  (destruct (_ =? _); [no|]; destruct (next_hop s t) as [ep|] eqn:NX;
   [|destruct (is_child s t); [|destruct (find_route _ _)]; no];
   destruct (pick true s ep); [|no];
   destruct (_ && _); [no|]; cbv zeta; destruct (send_on _ _ _); eauto).
Qed.
Lemma level_hop s s1 i : level s s1 -> next_hop s1 i = next_hop s i.
Proof. intro L. unfold next_hop, is_parent, is_child, my_id, my_subs. now rewrite (L_self _ _ L), (L_parent _ _ L), (L_routes _ _ L). Qed.
Lemma level_child s s1 i : level s s1 -> is_child s1 i = is_child s i.
Proof. intro L. unfold is_child, my_id, my_subs. now rewrite (L_self _ _ L). Qed.
Lemma level_get s s1 i : level s s1 -> get_endpoint s1 i = get_endpoint s i.
Proof. intro L. unfold get_endpoint, is_parent, my_id. now rewrite (L_self _ _ L), (L_parent _ _ L), (L_routes _ _ L). Qed.
Lemma remote_hop d s i r e c : remote d s i = (r, Some e, Some c) -> next_hop s i = Some e.
Proof.
  unfold remote. destruct (self s); [|discriminate]. destruct (nst s); [discriminate|..];
  (destruct (_ =? _); [discriminate|]; destruct (next_hop s i) as [x|]; [|discriminate]; destruct (pick d s x); [|discriminate]; congruence).
Qed.
Lemma address_sound s s1 from e a : level s s1 -> sync_address s1 from (e_ref e) = Some a ->
  In a (d_listen (es s (e_ref e))) /\ stream a /\
  (begins [117; 110; 105; 120; 58] a -> exists f, get_endpoint s from = Some f /\ d_host (es s (e_ref f)) = d_host (es s (e_ref e))).
Proof.
  intros L F. unfold sync_address in F. rewrite (level_get s s1 from L), !(L_es _ _ L) in F. apply find_some in F. destruct F as [I B].
  split; [exact I|]. apply andb_true_iff in B. destruct B as [B1 B2]. apply negb_true_iff, orb_false_iff in B1. destruct B1 as [M S]. split.
  - unfold stream, in_process. rewrite !begins_iff. fold p_mem p_shm. rewrite M, S. now split.
  - rewrite begins_iff. fold p_unix. intro U. rewrite U in B2. cbn [negb] in B2. rewrite orb_false_r in B2.
    destruct (get_endpoint s from) as [f|]; [|discriminate B2]. exists f. split; [reflexivity|]. now apply PropNodeConn.bytes_eqb_true.
Qed.
Section Req.
Variables (c : N) (h : head) (w : fwd) (s : node).
Definition advised (t : tr) : Prop := plain t \/ exists c' a, advises t c' a /\ advice s c c' (h_src h) (w_to w) a.
Lemma plain_advised t : plain t -> advised t. Proof. now left. Qed.
Lemma sync_advised e s1 : Inv s1 -> level s s1 -> k_st (cs s c) = Connected -> is_child s (h_src h) = true -> is_child s (w_to w) = true ->
  next_hop s (w_to w) = Some e -> is_child s (e_id e) = true -> adds advised s1 (fst (connect_sync (h_src h) (e_ref e) s1)).
Proof.
  intros I L CN CF CT NX CE. unfold connect_sync. destruct (sync_address s1 (h_src h) (e_ref e)) as [[|b a]|] eqn:A; try apply adds_refl.
  destruct (address_sound s s1 (h_src h) e (b :: a) L A) as (IN & SA & UX). unfold alloc_seq. cbv zeta. set (v := if _ =? 0 then 1 else _). set (s2 := set_seqn v s1).
  eapply adds_trans; [apply (adds_same advised s1 s2); reflexivity|].
  assert (I2 : Inv s2) by (eapply (steps_Inv true); [apply st_seqn|exact I]).
  assert (L2 : level s s2) by (eapply level_trans; [exact L|now constructor]). clearbody s2.
  set (m := {| m_head := _; m_body := BConn (b :: a) |}). unfold send_to. cbv zeta.
  assert (PA : adds advised s2 (fst (post false (h_src h) m s2))).
  { apply post_adds; trivial. intros f c' q z R. right. exists c', (b :: a). split; [exists (if h_seq (m_head m) =? 0 then set_seq q m else m); do 2 eexists; split; [reflexivity|destruct (h_seq (m_head m) =? 0); reflexivity]|].
    destruct (remote_some false s2 (h_src h) E_OK f c' I2 R) as (_ & NF & _ & BD & _ & ST & _).
    rewrite (level_hop s s2 _ L2) in NF. rewrite (L_bind _ _ L2) in BD. rewrite (L_st _ _ L2) in ST.
    constructor; trivial; [now exists e|discriminate|now exists f]. }
  destruct (post false (h_src h) m s2) as [s3 r]. cbn [fst] in PA. destruct (_ && _); [|exact PA]. cbn [fst].
  eapply adds_trans; [exact PA|]. apply (ks_dispatch_self advised plain_advised).
Qed.
Lemma data_req_advised : Inv s -> adds advised s (fst (data_req c h w s)).
Proof.
  intro I. pose proof (ks_transfer_rsp advised plain_advised) as TR. pose proof (ks_forward advised plain_advised) as FW. unfold ks in TR, FW.
  unfold data_req. destruct (_ <? _)%Z; [apply TR|]. destruct (is_connected s c) eqn:CN; [cbn [negb]|apply adds_refl].
  assert (ST : k_st (cs s c) = Connected) by (unfold is_connected in CN; now destruct (k_st (cs s c))).
  destruct (w_to w =? my_id s).
  - cbv zeta. set (s1 := emit _ s). assert (A : adds advised s s1) by (apply adds_emit; left; exact Logic.I).
    destruct (N.testbit _ _); [|exact A]. eapply adds_trans; [exact A|apply TR].
  - destruct (_ <=? _); [apply TR|]. cbv zeta. set (w1 := add_router w (my_id s)). change (w_to w1) with (w_to w).
    pose proof (FW false h w1 (h_src h) (w_to w) s) as A1. pose proof (level_forward false h w1 (h_src h) (w_to w) s) as L1.
    assert (I1 : Inv (fst (fst (fst (forward false h w1 (h_src h) (w_to w) s))))) by (eapply (steps_Inv true); [apply st_forward|exact I]).
    pose proof (forward_hop false h w1 (h_src h) (w_to w) s) as H1.
    destruct (forward false h w1 (h_src h) (w_to w) s) as [[[s1 res] oe] h1]. cbn [fst snd] in *.
    rewrite !(level_child s s1 _ L1). destruct ((0 <=? res)%Z && is_child s (w_to w)) eqn:B.
    { apply andb_true_iff in B. destruct B as [Z CT]. apply Z.leb_le in Z. destruct (H1 Z) as (e & -> & NX).
      rewrite !(level_child s s1 _ L1). destruct (_ && is_child s (h_src h) && is_child s (e_id e)) eqn:B; [|exact A1].
      apply andb_true_iff in B. destruct B as [B CE]. apply andb_true_iff in B. destruct B as [_ CF].
      eapply adds_trans; [exact A1|]. now apply sync_advised. }
    assert (FIN : forall s2 res2 h2, adds advised s s2 ->
      adds advised s (fst (if (res2 <? 0)%Z || N.testbit (w_flags w1) 0 then transfer_rsp h2 w1 res2 s2 else (s2, res2)))).
    { intros s2 res2 h2 A2. destruct (_ || _); [|exact A2]. eapply adds_trans; [exact A2|apply TR]. }
    destruct (_ && _ && _); [|now apply FIN]. destruct (parent s1) as [p|]; [|now apply FIN].
    destruct (match oe with Some _ => _ | None => _ end); [|now apply FIN].
    pose proof (FW false h1 w1 (h_src h) (e_id p) s1) as A2.
    destruct (forward false h1 w1 (h_src h) (e_id p) s1) as [[[s2 res2] oe2] h2]. cbn [fst] in A2.
    apply FIN. eapply adds_trans; eauto.
Qed.
End Req.
Lemma stamp_head s s1 c m : level s s1 -> stamp s1 c m = stamp s c m.
Proof. intro L. unfold stamp. now rewrite (L_bind _ _ L), (L_es _ _ L). Qed.
Lemma stamp_same s c m : m_body (stamp s c m) = m_body m /\ h_src (m_head (stamp s c m)) = sender s c m.
Proof. unfold stamp, sender. destruct (k_bind (cs s c)); [|now split]. cbv zeta. now destruct (_ =? 0). Qed.
Lemma advised_level s s1 c h w t : level s s1 -> advised c h w s1 t -> advised c h w s t.
Proof.
  intros L [P|(c' & a & A & [V1 V2 V3 V4 V5 V6 V7])]; [now left|right]. exists c', a. split; [exact A|].
  rewrite (level_child s s1 _ L) in V2. rewrite (level_child s s1 _ L) in V3. rewrite (L_st _ _ L) in V1. destruct V4 as (e & E1 & E2 & E3 & E4). destruct V7 as (g & G1 & G2 & G3).
  rewrite (level_hop s s1 _ L) in E1. rewrite (level_hop s s1 _ L) in G1. rewrite (level_child s s1 _ L) in E2. rewrite (L_es _ _ L) in E3. 
  rewrite (L_bind _ _ L) in G2. rewrite (L_st _ _ L) in G3. constructor; trivial; [exists e|exists g]; auto.
  split; [exact E1|]. split; [exact E2|]. split; [exact E3|]. intro U. destruct (E4 U) as (f & F1 & F2). exists f.
  rewrite (level_get s s1 _ L) in F1. split; [exact F1|]. now rewrite !(L_es _ _ L) in F2.
Qed.
Lemma recv_advised c k m w s : Inv s -> m_body m = BData false w -> adds (advised c (m_head (stamp s c m)) w s) s (recv_item c (RMsg k m) s).
Proof.
  intros I B. unfold recv_item. cbv zeta. set (s1 := on_c c _ s).
  assert (L : level s s1) by (apply level_pull). assert (I1 : Inv s1) by (now apply Inv_pull). rewrite (stamp_head s s1 c m L).
  eapply adds_trans; [apply (adds_same _ s s1); reflexivity|]. clearbody s1.
  set (h := m_head (stamp s c m)). set (P := advised c h w s).
  assert (A : adds P s1 (fst (dispatch_msg c (stamp s c m) s1))).
  { unfold dispatch_msg. destruct (stamp_same s c m) as [-> _]. rewrite B. eapply adds_impl; [intro t; apply (advised_level s s1 c h w t L)|].
    now apply data_req_advised. }
  unfold on_recv. destruct (dispatch_msg c (stamp s c m) s1) as [s2 r]. cbn [fst] in A. eapply adds_trans; [exact A|].
  destruct (r <? 0)%Z; [apply (ks_fault_of P (plain_advised c h w s))|]. destruct (k_bind (cs s2 c)); [|now apply adds_same].
  eapply adds_trans; [apply (adds_same P s2 (on_e n (set_d_fault 0) s2)); reflexivity|].
  eapply adds_trans; [apply (adds_emit P (TGood n)); left; exact Logic.I|now apply adds_same].
Qed.
(** An address is recommended to the peer that data came from, and it is one the next hop
    to its receiver announced, of a kind the peer can use. *)
Theorem C70_advice n k s s' c m w t c' a : reachable s -> step n (EIo (IRecv c (RMsg k m))) s = Some s' -> m_body m = BData false w ->
  added s s' t -> advises t c' a -> advice s c c' (sender s c m) (w_to w) a.
Proof.
  intros R S B (l & E & IN) AD. pose proof (reachable_Inv s R) as I.
  set (h := m_head (stamp s c m)).
  assert (HS : h_src h = sender s c m) by apply stamp_same.
  assert (G : adds (advised c h w s) s s').
  { unfold step, step_ret in S. injection S as <-. unfold io_step.
    pose proof (recv_advised c k m w s I B) as REC. destruct (nst s); try apply adds_refl; destruct (k_kind _); try apply adds_refl; exact REC. }
  destruct G as (l' & E' & F). assert (l = l') by (apply (app_inv_tail (log s)); congruence). subst l'.
  rewrite Forall_forall in F. destruct (F t IN) as [P|(c2 & a2 & A2 & V)]; [now elim (plain_advice t c' a P)|].
  destruct AD as (m1 & n1 & z1 & T1 & B1). destruct A2 as (m2 & n2 & z2 & T2 & B2). rewrite T1 in T2. injection T2 as <- <- <- <-.
  rewrite B1 in B2. injection B2 as <-. now rewrite <- HS.
Qed.
(** ** A recommendation is sent whenever it can be *)
Definition stuck (t : tr) : Prop := ~ passes t.
Lemma transfer_stuck h w z s : Inv s -> adds stuck s (fst (transfer_rsp h w z s)).
Proof.
  intro I. unfold transfer_rsp. apply send_to_adds; trivial.
  - intros t H (c & m & k & y & w' & -> & B & _). unfold inner, ordinary in H. destruct m as [h0 b0]. cbn [m_body] in B. subst b0. discriminate H.
  - intros e c q y _ (c1 & m1 & k1 & y1 & w1 & E & B & _). injection E as <- <- <- <-. destruct (_ =? 0); cbn in B; discriminate B.
Qed.
Lemma push_stuck c m s : (snd (push c m s) < 0)%Z -> adds stuck s (fst (push c m s)).
Proof.
  unfold push. cbv zeta. set (s1 := on_c c _ s). assert (A : adds stuck s s1) by now apply adds_same.
  assert (F : forall s2 f (z : Z), adds stuck s s2 -> adds stuck s (fst (on_c c f s2, z))).
  { intros s2 f z X. eapply adds_trans; [exact X|now apply adds_same]. }
  clearbody s1. destruct (k_st (cs s1 c)); try (intros _; now apply F);
  (destruct (k_kind (cs s1 c)); try (intros _; now apply F);
   destruct (take_orc s1) as [s2 r] eqn:T; assert (A2 : adds stuck s s2)
     by (apply (adds_trans _ _ s1); try exact A; unfold take_orc in T; destruct (orc s1); injection T as <- <-; now apply adds_same);
   cbn [snd]; intro R; destruct (Z.ltb_spec r 0); try lia; apply F; apply (adds_trans _ _ s2); try exact A2; apply adds_emit;
   intros (c1 & m1 & k1 & y1 & w1 & E & B & Z); injection E as <- <- <- <-; lia).
Qed.
Lemma forward_stuck rsp h w f t s : let '(s1, res, oe, h1) := forward rsp h w f t s in (res < 0)%Z -> adds stuck s s1.
Proof.
  unfold forward. destruct (t =? 0); [intros _; apply adds_refl|]. destruct (_ =? t); [intros _; apply adds_refl|].
  destruct (remote true s t) as [[r [e|]] [c|]]; try (intros _; apply adds_refl). destruct (_ && _); [intros _; apply adds_refl|].
  cbv zeta. set (m := {| m_head := _; m_body := _ |}). unfold send_on. destruct (_ <? _); [intros _; apply adds_refl|].
  pose proof (push_stuck c m s) as P. destruct (push c m s). exact P.
Qed.
Lemma push_sent c m s : k_st (cs s c) = Connected -> k_kind (cs s c) = KSock \/ k_kind (cs s c) = KSend ->
  exists l z, log (fst (push c m s)) = l ++ log s /\ In (TSend c m (x_size (cf s) m) z) l.
Proof.
  intros ST K. unfold push. cbv zeta. set (s1 := on_c c _ s).
  assert (ST1 : k_st (cs s1 c) = Connected) by (subst s1; rewrite cs_on_c, N.eqb_refl; exact ST).
  assert (K1 : k_kind (cs s1 c) = k_kind (cs s c)) by (subst s1; rewrite cs_on_c, N.eqb_refl; reflexivity).
  assert (L1 : log s1 = log s) by reflexivity. clearbody s1. rewrite ST1, K1.
  assert (T : log (fst (take_orc s1)) = log s) by (unfold take_orc; destruct (orc s1); exact L1).
  destruct (take_orc s1) as [s2 r]. cbn [fst] in T. exists [TSend c m (x_size (cf s) m) r], r.
  destruct K as [-> | ->]; (destruct (r <? 0)%Z; (split; [cbn; now rewrite T|now left])).
Qed.
Lemma sync_sent s from f c' e : nst s <> NCreated -> self s <> None -> from <> my_id s -> next_hop s from = Some f -> ctrl_conn s f = Some c' ->
  k_kind (cs s c') = KSock \/ k_kind (cs s c') = KSend ->
  ~ In [] (d_listen (es s e)) -> (forall h b, In b (d_listen (es s e)) -> x_size (cf s) {| m_head := h; m_body := BConn b |} <= x_msg (cf s) + 1024) ->
  (exists a g, In a (d_listen (es s e)) /\ get_endpoint s from = Some g /\ usable_by s (e_ref g) e a) ->
  exists l t b, log (fst (connect_sync from e s)) = l ++ log s /\ In t l /\ advises t c' b.
Proof.
  intros NC SF NM NX CC KK NE SZ (a & g & IN & GE & (SA & UX)). unfold connect_sync.
  destruct (sync_address s from e) as [b|] eqn:A.
  2: { exfalso. unfold sync_address in A. rewrite GE in A. pose proof (find_none _ _ A a IN) as F. cbv beta in F. destruct SA as [S1 S2].
    unfold in_process in S1. rewrite begins_iff in S1, S2, UX. fold p_mem in S1. fold p_shm in S2. fold p_unix in UX.
    destruct (prefix_nocase p_mem a); [now elim S1|]. destruct (prefix_nocase p_shm a); [now elim S2|]. cbn [orb negb andb] in F.
    destruct (prefix_nocase p_unix a); [|now rewrite orb_true_r in F]. rewrite (proj2 (PropNodeConn.bytes_eqb_true _ _) (UX eq_refl)) in F. discriminate F. }
  assert (IB : In b (d_listen (es s e))) by (apply find_some in A; apply A).
  destruct b as [|x b]; [now elim NE|]. unfold alloc_seq. cbv zeta. set (v := if _ =? 0 then 1 else _). set (s2 := set_seqn v s).
  set (m := {| m_head := _; m_body := BConn (x :: b) |}).
  assert (NE0 : forall z : Z, (E_OK <? 0)%Z = false) by reflexivity.
  assert (R : remote false s2 from = (E_OK, Some f, Some c')).
  { unfold remote. change (self s2) with (self s). change (nst s2) with (nst s). change (my_id s2) with (my_id s). change (next_hop s2 from) with (next_hop s from).
    destruct (self s); [|now elim SF]. rewrite (proj2 (N.eqb_neq _ _) NM), NX. unfold pick. change (ctrl_conn s2 f) with (ctrl_conn s f). rewrite CC. now destruct (nst s). }
  assert (PS : exists l t, log (fst (post false from m s2)) = l ++ log s /\ In t l /\ advises t c' (x :: b)).
  { unfold post. change (nst s2) with (nst s). change (my_id s2) with (my_id s). rewrite (proj2 (N.eqb_neq _ _) NM), R. rewrite (NE0 0%Z).
    unfold number. cbn [m m_head h_seq]. destruct (ctrl_conn_in s f c' CC) as [_ ST].
    assert (P : forall s3 m3, log s3 = log s -> cf s3 = cf s -> cs s3 = cs s -> m_body m3 = BConn (x :: b) ->
      exists l t, log (fst (send_on c' m3 s3)) = l ++ log s /\ In t l /\ advises t c' (x :: b)).
    { intros s3 m3 L3 C3 K3 B3. unfold send_on. rewrite C3. destruct m3 as [h3 b3]. cbn [m_body] in B3. subst b3.
      destruct (N.ltb_spec (x_msg (cf s) + 1024) (x_size (cf s) {| m_head := h3; m_body := BConn (x :: b) |})) as [X|X]; [pose proof (SZ h3 (x :: b) IB); lia|].
      destruct (push_sent c' {| m_head := h3; m_body := BConn (x :: b) |} s3) as (l & z & E & I); [now rewrite K3|now rewrite K3|].
      rewrite L3 in E. exists l. eexists. split; [exact E|]. split; [exact I|]. do 3 eexists. split; reflexivity. }
    destruct (v =? 0); [unfold alloc_seq; cbv zeta|]; destruct (nst s); try (now elim NC); now apply P. }
  unfold send_to. cbv zeta. destruct (post false from m s2) as [s3 r]. cbn [fst] in PS. destruct PS as (l & t & E & I & V).
  destruct (_ && _); [|now exists l, t, (x :: b)]. cbn [fst].
  destruct (ks_dispatch_self (fun _ => True) (fun _ _ => Logic.I) s3) as (l2 & E2 & _). exists (l2 ++ l), t, (x :: b).
  split; [now rewrite E2, E, app_assoc|]. split; [apply in_or_app; now right|exact V].
Qed.
Lemma in_adds (P : tr -> Prop) s s' t : adds P s s' -> added s s' t -> P t.
Proof.
  intros (l & E & F) (l' & E' & I). assert (l' = l) by (apply (app_inv_tail (log s)); congruence). subst l'. rewrite Forall_forall in F. now apply F.
Qed.
Lemma req_offered s c h w e f g c' a t : Inv s -> (forall x, lok (es s x)) -> added s (fst (data_req c h w s)) t -> passes t ->
  is_child s (h_src h) = true -> is_child s (w_to w) = true -> h_src h <> my_id s ->
  next_hop s (w_to w) = Some e -> is_child s (e_id e) = true -> In a (d_listen (es s (e_ref e))) ->
  get_endpoint s (h_src h) = Some g -> usable_by s (e_ref g) (e_ref e) a ->
  next_hop s (h_src h) = Some f -> ctrl_conn s f = Some c' -> k_kind (cs s c') = KSock \/ k_kind (cs s c') = KSend ->
  (forall h b, In b (d_listen (es s (e_ref e))) -> x_size (cf s) {| m_head := h; m_body := BConn b |} <= x_msg (cf s) + 1024) ->
  exists t b, added s (fst (data_req c h w s)) t /\ advises t c' b.
Proof.
  intros I LO AD PA CF CT NM NX CE IN GE US NF CC KK SZ.
  assert (NO : forall s', s' = fst (data_req c h w s) -> ~ adds stuck s s').
  { intros s' -> A. exact (in_adds _ _ _ _ A AD PA). }
  assert (W : w_to w <> my_id s \/ w_to w = my_id s) by (destruct (N.eq_dec (w_to w) (my_id s)); auto).
  revert NO AD. unfold data_req. destruct (_ <? _)%Z; [intros NO _; elim (NO _ eq_refl); now apply transfer_stuck|].
  destruct (is_connected s c); cbn [negb]; [|intros NO _; elim (NO _ eq_refl); apply adds_refl].
  destruct (w_to w =? my_id s).
  { intros NO _. elim (NO _ eq_refl). cbv zeta. set (s1 := emit _ s).
    assert (A : adds stuck s s1) by (apply adds_emit; intros (c1 & m1 & k1 & z1 & w1 & X & _); discriminate X).
    assert (I1 : Inv s1) by (eapply (steps_Inv true); [apply st_emit; exact Logic.I|exact I]).
    destruct (N.testbit _ _); [|exact A]. eapply adds_trans; [exact A|now apply transfer_stuck]. }
  destruct (_ <=? _); [intros NO _; elim (NO _ eq_refl); now apply transfer_stuck|].
  cbv zeta. set (w1 := add_router w (my_id s)). change (w_to w1) with (w_to w).
  pose proof (level_forward false h w1 (h_src h) (w_to w) s) as L1.
  assert (I1 : Inv (fst (fst (fst (forward false h w1 (h_src h) (w_to w) s))))) by (eapply (steps_Inv true); [apply st_forward|exact I]).
  pose proof (forward_hop false h w1 (h_src h) (w_to w) s) as H1. pose proof (forward_stuck false h w1 (h_src h) (w_to w) s) as K1.
  destruct (ks_forward (fun _ => True) (fun _ _ => Logic.I) false h w1 (h_src h) (w_to w) s) as (l1 & E1 & _).
  destruct (forward false h w1 (h_src h) (w_to w) s) as [[[s1 res] oe] h1]. cbn [fst snd] in *.
  rewrite !(level_child s s1 _ L1), CT. rewrite !andb_true_r. cbn [negb]. rewrite !andb_false_r.
  destruct (Z.leb_spec 0 res) as [Z|Z].
  2: { intros NO _. elim (NO _ eq_refl). pose proof (K1 Z) as A. destruct (_ || _); [|exact A]. eapply adds_trans; [exact A|now apply transfer_stuck]. }
  intros _ _. destruct (H1 Z) as (e' & -> & NX'). assert (e' = e) by congruence. subst e'.
  rewrite !(level_child s s1 _ L1), CF, CE, !(L_es _ _ L1). destruct (LO (e_ref e)) as [NE LF].
  assert (NA : a <> []) by (intros ->; contradiction).
  rewrite (LF a IN (proj2 (stream_iff a NA) (proj1 US))). cbn [andb].
  assert (NS : nst s <> NCreated).
  { intro X. destruct (I_created s I X) as [P0 R0]. unfold next_hop, is_parent in NX. rewrite P0, R0 in NX. unfold find_route in NX. cbn [lower_bound] in NX.
    destruct (my_id s =? 0), (is_child s (w_to w)); discriminate NX. }
  assert (SF : self s <> None).
  { intro X. unfold is_child, my_id in CF. rewrite X in CF. discriminate CF. }
  destruct (sync_sent s1 (h_src h) f c' (e_ref e)) as (l & t1 & b & E2 & I2 & V2).
  - now rewrite (L_nst _ _ L1).
  - now rewrite (L_self _ _ L1).
  - now rewrite (level_my _ _ L1).
  - now rewrite (level_hop _ _ _ L1).
  - unfold ctrl_conn, my_ref, is_connected in *. rewrite (L_self _ _ L1), (L_es _ _ L1). destruct (_ =? _); [exact CC|].
    destruct (d_ctrl _); [|exact CC]. now rewrite (L_st _ _ L1).
  - now rewrite (L_kind _ _ L1).
  - now rewrite (L_es _ _ L1).
  - rewrite (L_cf _ _ L1), (L_es _ _ L1). exact SZ.
  - exists a, g. rewrite (L_es _ _ L1), (level_get _ _ _ L1). split; [exact IN|]. split; [exact GE|]. unfold usable_by in *. now rewrite !(L_es _ _ L1).
  - exists t1, b. split; [|exact V2]. exists (l ++ l1). split; [now rewrite E2, E1, app_assoc|]. apply in_or_app. now left.
Qed.
Lemma ks_data_any c h w s : Inv s -> exists l, log (fst (data_req c h w s)) = l ++ log s.
Proof. intro I. destruct (data_req_advised c h w s I) as (l & E & _). now exists l. Qed.
(** When data between two children is passed on and the next hop has announced an address
    that the sender can use, one is recommended. *)
Theorem C70_offered n k s s' c m w t e f g c' a : reachable s -> step n (EIo (IRecv c (RMsg k m))) s = Some s' -> m_body m = BData false w ->
  added s s' t -> passes t ->
  is_child s (sender s c m) = true -> is_child s (w_to w) = true -> sender s c m <> my_id s ->
  next_hop s (w_to w) = Some e -> is_child s (e_id e) = true -> In a (d_listen (es s (e_ref e))) ->
  get_endpoint s (sender s c m) = Some g -> usable_by s (e_ref g) (e_ref e) a ->
  next_hop s (sender s c m) = Some f -> ctrl_conn s f = Some c' -> k_kind (cs s c') = KSock \/ k_kind (cs s c') = KSend ->
  (forall h b, In b (d_listen (es s (e_ref e))) -> x_size (cf s) {| m_head := h; m_body := BConn b |} <= x_msg (cf s) + 1024) ->
  exists t b, added s s' t /\ advises t c' b.
Proof.
  intros R S B AD PA. destruct (stamp_same s c m) as [BS HS]. rewrite <- HS. intros CF CT NM NX CE IN GE US NF CC KK SZ.
  pose proof (reachable_Inv s R) as I. pose proof (reachable_listen s R) as LO.
  set (h := m_head (stamp s c m)) in *. set (s1 := on_c c (fun k0 => set_k_pull (bump (k_pull k0) k) k0) s).
  assert (L : level s s1) by apply level_pull. assert (I1 : Inv s1) by now apply Inv_pull. assert (G1 : log s1 = log s) by reflexivity.
  assert (X : exists l, log (recv_item c (RMsg k m) s) = l ++ log (fst (data_req c h w s1)) /\ Forall stuck l).
  { unfold recv_item. cbv zeta. fold s1. rewrite (stamp_head s s1 c m L), on_recv_eq. unfold dispatch_msg. rewrite BS, B. fold h.
    destruct (qt_after c (data_req c h w s1)) as (l & E & F). exists l. split; [exact E|]. eapply Forall_impl; [|exact F].
    intros x O (c1 & m1 & k1 & z1 & w1 & -> & B1 & _). unfold ordinary in O. unfold is_data in O. rewrite B1 in O. discriminate O. }
  assert (Y : s' = recv_item c (RMsg k m) s \/ s' = s).
  { unfold step, step_ret in S. cbn [option_map fst] in S. injection S as <-. unfold io_step. destruct (nst s); try (right; reflexivity); (destruct (k_kind (cs s c)); first [right; reflexivity|left; reflexivity]). }
  destruct AD as (l & E & T). destruct Y as [-> | ->].
  2: { destruct l as [|x l]; [destruct T|]. assert (length (log s) = length ((x :: l) ++ log s)) as Z by now rewrite <- E. rewrite app_length in Z. cbn in Z. lia. }
  destruct X as (l2 & E2 & F2). destruct (ks_data_any c h w s1 I1) as (l1 & E1). rewrite G1 in E1.
  assert (l = l2 ++ l1) by (apply (app_inv_tail (log s)); rewrite <- E, E2, E1; apply app_assoc). subst l.
  assert (T1 : In t l1). { apply in_app_or in T as [T|T]; [|exact T]. rewrite Forall_forall in F2. now elim (F2 t T). }
  destruct (req_offered s1 c h w e f g c' a t) as (t1 & b & (l3 & E3 & T3) & V).
  - exact I1.
  - intro x. rewrite (L_es _ _ L). apply LO.
  - exists l1. now rewrite G1.
  - exact PA.
  - now rewrite (level_child _ _ _ L).
  - now rewrite (level_child _ _ _ L).
  - now rewrite (level_my _ _ L).
  - now rewrite (level_hop _ _ _ L).
  - now rewrite (level_child _ _ _ L).
  - now rewrite (L_es _ _ L).
  - now rewrite (level_get _ _ _ L).
  - unfold usable_by in *. now rewrite !(L_es _ _ L).
  - now rewrite (level_hop _ _ _ L).
  - unfold ctrl_conn, my_ref, is_connected in *. rewrite (L_self _ _ L), (L_es _ _ L). destruct (_ =? _); [exact CC|].
    destruct (d_ctrl _); [|exact CC]. now rewrite (L_st _ _ L).
  - now rewrite (L_kind _ _ L).
  - rewrite (L_cf _ _ L), (L_es _ _ L). exact SZ.
  - exists t1, b. split; [|exact V]. exists (l2 ++ l3). rewrite G1 in E3. split; [now rewrite E2, E3, app_assoc|]. apply in_or_app. now right.
Qed.

(** ** Cases *)
Lemma witness_step {A} (f : node -> node -> A) l ev v :
  match run fuel0 l new_node with Some s => option_map (f s) (step fuel0 ev s) | None => None end = Some v ->
  exists s s', run fuel0 l new_node = Some s /\ reachable s /\ step fuel0 ev s = Some s' /\ f s s' = v.
Proof.
  destruct (run fuel0 l new_node) as [s|] eqn:R; [|discriminate]. destruct (step fuel0 ev s) as [s'|] eqn:S; [|discriminate].
  intro H. injection H as H. exists s, s'. split; [reflexivity|]. split; [now exists fuel0, l|]. split; [exact S|exact H].
Qed.
Ltac observe2 f l ev :=
  let v := eval vm_compute in (match run fuel0 l new_node with Some s => option_map (f s) (step fuel0 ev s) | None => None end) in
  match v with Some ?x => let s := fresh "s" in let s' := fresh "s'" in let R := fresh "R" in let Q := fresh "Q" in let S := fresh "S" in let E := fresh "E" in
    destruct (witness_step f l ev x) as (s & s' & R & Q & S & E); [vm_compute; reflexivity|] end.
Definition h_in := [EInit 65536 cfg0; EStart 100; EListen adr; EIo (IAccepted adr2)].
Definition reg_in := EIo (IRecv 2 (RMsg 10 (msg0 65540 (BReg false (reg0 65540 []))))).
(** A child that registers makes the node open the address it announces. *)
Example C69_case : exists s s' a, reachable s /\ step fuel0 reg_in s = Some s' /\ fresh s s' 3 /\ names (cf s) reg_in a /\
  target a (k_addr (cs s' 3)) /\ k_addr (cs s' 3) = adr.
Proof.
  observe2 (fun s s' => (nextc s, nextc s', k_addr (cs s' 3), x_host (cf s), x_pid (cf s))) h_in reg_in. injection E as E1 E2 E3 E4 E5.
  exists s, s', adr. split; [exact Q|]. split; [exact S|]. split; [unfold fresh; rewrite E1, E2; lia|].
  destruct (C69_origin fuel0 reg_in s s' S) as [A _]. destruct (A 3) as [X|(b & X & Y)]; [unfold fresh; rewrite E1, E2; lia|rewrite E3 in X; discriminate X|].
  assert (X0 := X). cbn in X0. destruct X0 as ([<-|[]] & _). (split; [exact X|]; split; [exact Y|exact E3]).
Qed.
(** An accepted connection whose peer recommends an address at once. *)
Example C69_stranger_case : exists s s' m, reachable s /\ k_st (cs s 2) <> Connected /\ m_body m = BConn adr /\
  step fuel0 (EIo (IRecv 2 (RMsg 10 m))) s = Some s' /\ k_kind (cs s 2) = KSock /\ nextc s' = nextc s.
Proof.
  observe2 (fun s s' => (k_st (cs s 2), k_kind (cs s 2), nextc s, nextc s')) h_in (EIo (IRecv 2 (RMsg 10 (msg0 65540 (BConn adr))))).
  injection E as E1 E2 E3 E4. exists s, s', (msg0 65540 (BConn adr)). split; [exact Q|]. split; [rewrite E1; discriminate|]. split; [reflexivity|]. split; [exact S|]. split; [exact E2|]. rewrite E3, E4. reflexivity.
Qed.
(** A peer can still make a node attach to memory: an address "memx:..." is none of the
    kinds that may not be recommended, but opening it attaches a memory channel. *)
Definition memx : bytes := [109;101;109;120;58;47;47;48;120;49;48;48;48].
Theorem C69_memory_refuted : exists s s' m, reachable s /\ m_body m = BConn memx /\ stream memx /\
  step fuel0 (EIo (IRecv 2 (RMsg 10 m))) s = Some s' /\ fresh s s' 4 /\ k_kind (cs s' 4) = KSend /\ k_addr (cs s' 4) = memx.
Proof.
  observe2 (fun s s' => (nextc s, nextc s', k_kind (cs s' 4), k_addr (cs s' 4))) (boot 65540 []) (EIo (IRecv 2 (RMsg 10 (msg0 65540 (BConn memx))))).
  injection E as E1 E2 E3 E4. exists s, s', (msg0 65540 (BConn memx)). split; [exact Q|]. split; [reflexivity|].
  split; [unfold stream, in_process; rewrite !begins_iff; split; discriminate|]. split; [exact S|].
  split; [unfold fresh; rewrite E1, E2; lia|]. (split; [exact E3|exact E4]).
Qed.
(** So does a peer on another machine that claims to be in the same process. *)
Definition claim := EIo (IRecv 2 (RMsg 10 (msg0 65540 (BReg false
  {| r_id := 65540; r_pid := 7; r_host := [1]; r_chans := [adr_mem]; r_keys := []; r_nets := [] |})))).
Theorem C69_claim_refuted : exists s s', reachable s /\ k_kind (cs s 2) = KSock /\ k_addr (cs s 2) = adr2 /\
  step fuel0 claim s = Some s' /\ fresh s s' 3 /\ k_kind (cs s' 3) = KSend /\ k_addr (cs s' 3) = adr_mem.
Proof.
  observe2 (fun s s' => (k_kind (cs s 2), k_addr (cs s 2), nextc s, nextc s', k_kind (cs s' 3), k_addr (cs s' 3))) h_in claim.
  injection E as E1 E2 E3 E4 E5 E6. exists s, s'. split; [exact Q|]. split; [exact E1|]. split; [exact E2|]. split; [exact S|].
  split; [unfold fresh; rewrite E3, E4; lia|]. (split; [exact E5|exact E6]).
Qed.
(** Two children; data from one for the other. *)
Definition h_two := boot 65537 [] ++ [EIo (IAccepted adr2);
  EIo (IRecv 4 (RMsg 10 (msg0 65538 (BReg false {| r_id := 65538; r_pid := 8; r_host := [2]; r_chans := [adr2]; r_keys := []; r_nets := [] |}))));
  EIo (IConnected 5 0)].
Definition data_in := msg0 65537 (BData false (data0 65537 65538 [])).
Example C70_case : exists s s' t, reachable s /\ step fuel0 (EIo (IRecv 2 (RMsg 10 data_in))) s = Some s' /\ added s s' t /\
  advises t 2 adr2 /\ advice s 2 2 65537 65538 adr2.
Proof.
  observe2 (fun s s' => (sender s 2 data_in, log s, log s')) h_two (EIo (IRecv 2 (RMsg 10 data_in))). injection E as E1 E2 E3.
  match type of E3 with _ = _ :: ?t :: _ => exists s, s', t; assert (A : added s s' t /\ advises t 2 adr2) end.
  { split; [unfold added; gains E2 E3|]. do 3 eexists. split; reflexivity. }
  split; [exact Q|]. split; [exact S|]. split; [apply A|]. split; [apply A|].
  pose proof (C70_advice fuel0 10 s s' 2 data_in _ _ 2 adr2 Q S eq_refl (proj1 A) (proj2 A)) as V. now rewrite E1 in V.
Qed.
Example C70_offered_case : exists s s' t e f g, reachable s /\ step fuel0 (EIo (IRecv 2 (RMsg 10 data_in))) s = Some s' /\ added s s' t /\ passes t /\
  is_child s (sender s 2 data_in) = true /\ is_child s 65538 = true /\ sender s 2 data_in <> my_id s /\
  next_hop s 65538 = Some e /\ is_child s (e_id e) = true /\ In adr2 (d_listen (es s (e_ref e))) /\
  get_endpoint s (sender s 2 data_in) = Some g /\ usable_by s (e_ref g) (e_ref e) adr2 /\
  next_hop s (sender s 2 data_in) = Some f /\ ctrl_conn s f = Some 2 /\ k_kind (cs s 2) = KSock /\
  (forall h b, In b (d_listen (es s (e_ref e))) -> x_size (cf s) {| m_head := h; m_body := BConn b |} <= x_msg (cf s) + 1024).
Proof.
  observe2 (fun s s' => (log s, log s', sender s 2 data_in, my_id s, next_hop s 65538, next_hop s 65537, (is_child s 65537, is_child s 65538),
    d_listen (es s 3), get_endpoint s 65537, ctrl_conn s {| e_ref := 2; e_id := 65537; e_subs := [{| g_prefix := 65537; g_mask := 0; g_min := 65537; g_max := 65537 |}] |},
    k_kind (cs s 2), x_msg (cf s), x_size (cf s))) h_two (EIo (IRecv 2 (RMsg 10 data_in))).
  injection E as E1 E2 E3 E4 E5 E6 E7 E8 E9 E10 E11 E12 E13 E14.
  match type of E2 with _ = _ :: _ :: ?t :: _ => exists s, s', t end. do 3 eexists.
  rewrite E3, E4, E5, E6, E7, E8.
  split; [exact Q|]. split; [exact S|]. split; [unfold added; gains E1 E2|]. split; [do 5 eexists; split; [reflexivity|split; [reflexivity|lia]]|].
  split; [reflexivity|]. split; [reflexivity|]. split; [discriminate|]. split; [reflexivity|]. cbn [e_id e_ref]. rewrite E9.
  split; [exact E8|]. split; [left; reflexivity|]. split; [exact E10|]. split.
  { split; [unfold stream, in_process; rewrite !begins_iff; split; discriminate|]. rewrite begins_iff. discriminate. }
  split; [reflexivity|]. split; [exact E11|]. split; [exact E12|]. intros h b _. rewrite E13, E14. discriminate.
Qed.

Print Assumptions C69_origin.
Print Assumptions C69_history.
Print Assumptions C69_stranger.
Print Assumptions C69_memory_refuted.
Print Assumptions C69_claim_refuted.
Print Assumptions C70_only_for_data.
Print Assumptions C70_advice.
Print Assumptions C70_offered.
