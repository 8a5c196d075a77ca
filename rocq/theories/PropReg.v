(** Registration of a peer: C58. *)
From Verif Require Import Base Subnet SubnetSpec SubnetProof Route RouteProof Address NodeTypes NodeConn NodeCore NodeMsg Node
  NodeFrame NodeCtx NodeReset NodeInv NodeKeep NodeSteps NodeReach NodeSpec NodeLog NodeNotice NodeRoute NodeTrace NodeHandle NodeAuth
  PropNodeMsg PropNodeAuth PropNet PropCmd PropUb NodeReg NodeExample.
Local Open Scope N_scope.
Ltac Zify.zify_post_hook ::= idtac.

(** ** Specification *)
(** What was sent on connection [c], and which peers were reported as added or removed. *)
Definition sent_on (c : N) (l : list tr) : list (msg * Z) :=
  flat_map (fun t => match t with TSend c' m _ z => if c' =? c then [(m, z)] else [] | _ => [] end) l.
Definition added (l : list tr) : list N := flat_map (fun t => match t with TAdded e => [e] | _ => [] end) l.
Definition removed (l : list tr) : list N := flat_map (fun t => match t with TRemoved e => [e] | _ => [] end) l.
(** A stream connection whose peer has not registered yet. *)
Definition unregistered (s : node) (c : N) : Prop :=
  c < nextc s /\ k_st (cs s c) = Handshaking /\ k_kind (cs s c) = KSock /\ k_fd (cs s c) = true.
(** The answer to a registration request: same sequence number, the code, the node's own
    id and process. *)
Definition reply (s : node) (m : msg) (code : Z) (a : msg) : Prop :=
  h_seq (m_head a) = h_seq (m_head m) /\ h_ret (m_head a) = code /\ h_src (m_head a) = my_id s /\ h_ver (m_head a) = ver /\
  exists q, m_body a = BReg true q /\ r_id q = my_id s /\ r_pid q = x_pid (cf s) /\ r_host q = x_host (cf s).
(** A peer of another process is registered under the id asked for. *)
Definition taken (s : node) (r : reg) : Prop := exists e, get_endpoint s (r_id r) = Some e /\
  (d_pid (es s (e_ref e)) <> r_pid r \/ d_host (es s (e_ref e)) <> r_host r).
(** Why the code is what it is. *)
Definition grounds (s : node) (m : msg) (r : reg) (code : Z) : Prop :=
  (code = E_VERSION <-> (h_ver (m_head m) < ver)%Z) /\
  (code = E_ACCESS_DENY <-> (ver <= h_ver (m_head m))%Z /\ ~ key_fine (cf s) (r_keys r)) /\
  (code = E_ID_CONFLICT <-> (ver <= h_ver (m_head m))%Z /\ key_fine (cf s) (r_keys r) /\ my_id s <> 0 /\ taken s r).
(** The peer is now reached over [c]: it was known and its process is the same, or it is
    new, reported once and in the table. *)
Definition joined (s s' : node) (c : N) (r : reg) (l : list tr) : Prop :=
  exists e, k_bind (cs s' c) = Some (e_ref e) /\ k_st (cs s' c) = Connected /\ d_ep (es s' (e_ref e)) = e /\ e_id e = r_id r /\ removed l = [] /\
  ((get_endpoint s (r_id r) = Some e /\ (my_id s = 0 \/ ~ taken s r) /\ added l = [] /\ routes s' = routes s /\ parent s' = parent s) \/
   (get_endpoint s (r_id r) = None /\ added l = [e_ref e] /\
    (parent s' = Some e /\ routes s' = routes s \/ parent s' = parent s /\ In e (map snd (routes s'))))).
(** Nothing happened to the tables, and the connection is closed, unless the request was
    turned down before it was looked at. *)
Definition refused (s s' : node) (c : N) (code : Z) (l : list tr) : Prop :=
  (code < 0)%Z /\ added l = [] /\ removed l = [] /\ routes s' = routes s /\ parent s' = parent s /\ k_bind (cs s' c) = None /\
  (k_st (cs s' c) = Disconnected \/ (code = E_VERSION \/ code = E_ACCESS_DENY) /\ k_st (cs s' c) = Handshaking).

(** ** Proof *)
Lemma hush_none c l : Forall (hush c) l -> sent_on c l = [] /\ added l = [] /\ removed l = [].
Proof.
  intro F. induction F as [|t l H F (A & B & C)]; [now repeat split|]. unfold sent_on, added, removed in *. cbn [flat_map]. rewrite A, B, C.
  destruct t as [c' m n z| | | | | | | | | | | | | | | | | | | | | |]; cbn in H; try contradiction; try now repeat split.
  apply N.eqb_neq in H. rewrite H. now repeat split.
Qed.
Lemma sent_app c a b : sent_on c (a ++ b) = sent_on c a ++ sent_on c b. Proof. apply flat_map_app. Qed.
Lemma added_app a b : added (a ++ b) = added a ++ added b. Proof. apply flat_map_app. Qed.
Lemma removed_app a b : removed (a ++ b) = removed a ++ removed b. Proof. apply flat_map_app. Qed.
Lemma hushed_sent c l : Forall hushed l -> sent_on c l = [].
Proof. intro F. induction F as [|t l H F IH]; trivial. unfold sent_on in *. cbn [flat_map]. rewrite IH. destruct t; now try contradiction. Qed.

Lemma after_shut c s z : view (cs s c) = shut_view -> apart c s (after_recv c (s, z)) /\ view (cs (after_recv c (s, z)) c) = shut_view.
Proof.
  intro V. assert (VV := V). unfold view, shut_view in VV. injection VV as V1 V2 V3 V4. unfold after_recv. destruct (_ <? _)%Z.
  - unfold fault_of. rewrite V1. unfold conn_fault. cbv zeta. set (s1 := on_c c _ s).
    assert (F : far c s s1) by now apply far_onc_same. destruct F as [F1 F2]. destruct (_ <? _); [|split; [exact F1|congruence]].
    assert (X : k_bind (cs s1 c) = None /\ k_st (cs s1 c) = Disconnected /\ k_kind (cs s1 c) = KNone) by (rewrite V in F2; unfold view, shut_view in F2; injection F2; auto).
    destruct X as (X1 & X2 & X3). destruct (conn_reset_shut c s1 X1) as [R1 R2]; [congruence|congruence|]. split; [eapply ap_trans; eauto|exact R2].
  - cbv zeta. rewrite V1. assert (F : far c s (on_c c (set_k_fault 0) s)) by now apply far_onc_same. destruct F as [F1 F2]. split; [exact F1|congruence].
Qed.
Lemma after_fine c s z : (0 <= z)%Z -> far c s (after_recv c (s, z)).
Proof.
  intro P. unfold after_recv. apply Z.ltb_ge in P. rewrite P. cbv zeta.
  destruct (k_bind (cs s c)) as [e|]; [|now apply far_onc_same]. eapply far_trans; [apply (far_one c e (set_d_fault 0)); reflexivity|].
  eapply far_trans; [apply (far_emit c (TGood e)); exact Logic.I|now apply far_onc_same].
Qed.

(** The one message that goes out. *)
Record spoke (c : N) (a : msg) (z : Z) (s s' : node) : Prop := {
  sp_log : exists k, log s' = TSend c a k z :: log s;
  sp_r : routes s' = routes s; sp_p : parent s' = parent s; sp_s : self s' = self s; sp_cf : cf s' = cf s; sp_es : es s' = es s;
  sp_nc : nextc s' = nextc s; sp_ne : nexte s' = nexte s; sp_v : view (cs s' c) = view (cs s c) }.
Definition too_big (s : node) (a : msg) : Prop := x_msg (cf s) + 1024 < x_size (cf s) a.
Lemma send_reg_once c m code s : self s <> None -> k_st (cs s c) = Handshaking \/ k_st (cs s c) = Connected -> k_kind (cs s c) = KSock ->
  let p := send_reg true c code (h_seq (m_head m)) s in
  exists s1 a, far c s s1 /\ reply s m code a /\ (spoke c a (snd p) s1 (fst p) \/ (snd p < 0)%Z /\ too_big s a /\ fst p = s1).
Proof.
  intros SE K SK. cbv zeta. unfold send_reg. destruct (self s) as [me|] eqn:ME; [|contradiction].
  pose proof (far_gen c (x_tokens (cf s)) s) as G. destruct (gen_keys (x_tokens (cf s)) s) as [s1 ks]. cbn [fst] in G.
  destruct G as [G V]. assert (MI : my_id s1 = my_id s) by (unfold my_id; now rewrite (far_s c _ _ G)). pose proof (far_cf c _ _ G) as CF.
  set (a := {| m_head := _; m_body := BReg _ _ |}). assert (VV := V). unfold view in VV. injection VV as V1 V2 V3 V4.
  rewrite <- V2 in K. rewrite <- V3 in SK. pose proof (send_on_view c a s1 K SK) as S. cbv zeta in S.
  destruct S as (S0 & S1 & S2 & S3 & S4 & S5 & S6 & S7 & S8). exists s1, a. split; [now split|]. split.
  { split; [reflexivity|]. split; [reflexivity|]. split; [exact MI|]. split; [reflexivity|]. eexists. split; [reflexivity|]. cbn. rewrite CF. auto. }
  destruct S0 as [S0|(S0 & B & Z)]; [left; constructor; eauto|]. right. rewrite Z. split; [reflexivity|]. unfold too_big. rewrite <- CF. split; [exact B|].
  revert S0 Z. unfold send_on. apply N.ltb_lt in B. rewrite B. reflexivity.
Qed.
Lemma spoke_apart c a z s s' : spoke c a z s s' -> routes s' = routes s /\ parent s' = parent s /\ (forall e, d_ep (es s' e) = d_ep (es s e)) /\
  exists l, log s' = l ++ log s /\ sent_on c l = [(a, z)] /\ added l = [] /\ removed l = [].
Proof.
  intros [(k & L) R P S C E NC NE V]. split; [exact R|]. split; [exact P|]. split; [intro; now rewrite E|]. exists [TSend c a k z].
  split; [exact L|]. unfold sent_on. cbn. rewrite N.eqb_refl. now repeat split.
Qed.
(** Log segments around the message. *)
Lemma log3 c s s1 s2 s3 l : adds (hush c) s s1 -> log s2 = l ++ log s1 -> adds (hush c) s2 s3 ->
  exists k, log s3 = k ++ log s /\ sent_on c k = sent_on c l /\ added k = added l /\ removed k = removed l.
Proof.
  intros (l1 & E1 & F1) E2 (l3 & E3 & F3). exists (l3 ++ l ++ l1). destruct (hush_none c _ F1) as (A1 & A2 & A3). destruct (hush_none c _ F3) as (B1 & B2 & B3).
  split; [rewrite E3, E2, E1, !app_assoc; reflexivity|]. rewrite !sent_app, !added_app, !removed_app, A1, A2, A3, B1, B2, B3, !app_nil_r. now repeat split.
Qed.
Lemma adds_one c s s' : adds (hush c) s s' -> exists l, log s' = l ++ log s /\ sent_on c l = [] /\ added l = [] /\ removed l = [].
Proof. intros (l & E & F). exists l. split; [exact E|]. now apply hush_none. Qed.

Definition conclusion (s s' : node) (c : N) (m : msg) (r : reg) (l : list tr) (code : Z) : Prop :=
  grounds s m r code /\
  ((sent_on c l = [] /\ (code <> 0%Z /\ k_st (cs s' c) = Disconnected \/ exists a, reply s m code a /\ too_big s a)) \/
   exists a z, sent_on c l = [(a, z)] /\ reply s m code a) /\
  (code <> 0%Z -> refused s s' c code l) /\
  (code = 0%Z -> forall a z, sent_on c l = [(a, z)] -> (0 <= z)%Z -> joined s s' c r l).

(** A refusal that leaves the tables alone: the answer, then the connection is closed or
    left as it is. *)
Lemma conclude_refusal s s0 c m r code : waits c s -> self s <> None -> apart c s s0 ->
  view (cs s0 c) = view (cs s c) \/ view (cs s0 c) = shut_view ->
  (code < 0)%Z -> grounds s m r code ->
  let p := if k_fd (cs s0 c) then let (s2, z) := send_reg true c code (h_seq (m_head m)) s0 in
             ((if (code =? E_VERSION)%Z || (code =? E_ACCESS_DENY)%Z then (if (z <? 0)%Z then conn_reset c s2 else s2) else conn_reset c s2), z)
           else (s0, E_OK) in
  exists l, log (after_recv c p) = l ++ log s /\ conclusion s (after_recv c p) c m r l code.
Proof.
  intros W SE A V CN GR. assert (CZ : code <> 0%Z) by lia. cbv zeta. destruct V as [V|V].
  - rewrite (waits_view c s W) in V. assert (VV := V). unfold view in VV. injection VV as V1 V2 V3 V4. rewrite V4.
    assert (SE0 : self s0 <> None) by now rewrite (far_s c _ _ A).
    destruct (send_reg_once c m code s0 SE0 (or_introl V2) V3) as (s1 & a & F & RP & S).
    destruct (send_reg true c code (h_seq (m_head m)) s0) as [s2 z]. cbn [fst snd] in S.
    assert (RP' : reply s m code a).
    { destruct RP as (R1 & R2 & R3 & R4 & q & R5 & R6 & R7 & R8). rewrite (far_cf c _ _ A) in R7, R8. unfold my_id in R3, R6. rewrite (far_s c _ _ A) in R3, R6.
      repeat (split; [assumption|]). exists q. auto. }
    assert (BG : too_big s0 a -> too_big s a) by (unfold too_big; rewrite (far_cf c _ _ A); auto).
    destruct F as [F FV]. assert (A1 : apart c s s1) by (eapply ap_trans; eauto).
    (* the state once the message is out *)
    assert (X : exists l2, log s2 = l2 ++ log s1 /\ routes s2 = routes s1 /\ parent s2 = parent s1 /\ view (cs s2 c) = (None, Handshaking, KSock, true) /\
      added l2 = [] /\ removed l2 = [] /\ (sent_on c l2 = [(a, z)] \/ sent_on c l2 = [] /\ too_big s a /\ (z < 0)%Z)).
    { destruct S as [S|(S1 & S2 & ->)].
      - destruct (spoke_apart c a z s1 s2 S) as (P1 & P2 & P3 & l2 & P4 & P5 & P6 & P7). exists l2. repeat (split; [assumption|]).
        split; [rewrite (sp_v _ _ _ _ _ S), FV; exact V|]. auto.
      - exists []. repeat (split; [reflexivity|]). split; [rewrite FV; exact V|]. repeat (split; [reflexivity|]). right. auto. }
    destruct X as (l2 & L2 & R2 & P2 & V2' & AD & RM & SN). unfold view in V2'. injection V2' as Y1 Y2 Y3 Y4.
    set (s3 := if (code =? E_VERSION)%Z || (code =? E_ACCESS_DENY)%Z then if (z <? 0)%Z then conn_reset c s2 else s2 else conn_reset c s2).
    assert (T : (apart c s2 s3 /\ view (cs s3 c) = shut_view) \/ (s3 = s2 /\ (0 <= z)%Z /\ (code = E_VERSION \/ code = E_ACCESS_DENY))).
    { destruct (conn_reset_shut c s2 Y1) as [Q1 Q2]; [congruence|congruence|]. unfold s3. destruct (Z.eqb_spec code E_VERSION) as [E|E]; cbn [orb].
      - destruct (Z.ltb_spec z 0); [left; now split|right; auto].
      - destruct (Z.eqb_spec code E_ACCESS_DENY) as [E'|E']; [destruct (Z.ltb_spec z 0); [left; now split|right; auto]|left; now split]. }
    assert (U : exists s4, after_recv c (s3, z) = s4 /\ apart c s2 s4 /\ k_bind (cs s4 c) = None /\
      (k_st (cs s4 c) = Disconnected \/ (0 <= z)%Z /\ (code = E_VERSION \/ code = E_ACCESS_DENY) /\ k_st (cs s4 c) = Handshaking)).
    { exists (after_recv c (s3, z)). split; [reflexivity|]. destruct T as [[T1 T2]|(-> & T1 & T2)].
      - destruct (after_shut c s3 z T2) as [Q1 Q2]. set (s4 := after_recv c (s3, z)) in *. clearbody s4. unfold view, shut_view in Q2. injection Q2 as Q2 Q3 Q4 Q5. split; [eapply ap_trans; eauto|]. auto.
      - destruct (after_fine c s2 z T1) as [Q1 Q2]. set (s4 := after_recv c (s2, z)) in *. clearbody s4. unfold view in Q2. injection Q2 as Q2 Q3 Q4 Q5. split; [exact Q1|]. split; [congruence|]. right. split; [exact T1|]. split; [exact T2|congruence]. }
    destruct U as (s4 & -> & U1 & U2 & U3).
    destruct (log3 c s s1 s2 s4 l2 (far_log c _ _ A1) L2 (far_log c _ _ U1)) as (k & K1 & K2 & K3 & K4). exists k. split; [exact K1|].
    split; [exact GR|]. split; [|split; [|intro; contradiction]].
    + rewrite K2. destruct SN as [SN|(SN & TB & ZN)]; [right; eauto|]. left. split; [exact SN|]. right. eauto.
    + intros _. split; [exact CN|]. split; [congruence|]. split; [congruence|]. split; [rewrite (far_r c _ _ U1), R2; apply A1|].
      split; [rewrite (far_p c _ _ U1), P2; apply A1|]. split; [exact U2|]. destruct U3 as [U3|(U3 & U4 & U5)]; [now left|right; now split].
  - assert (VV := V). unfold view, shut_view in VV. injection VV as V1 V2 V3 V4. rewrite V4. destruct (after_shut c s0 E_OK V) as [Q1 Q2].
    assert (A1 : apart c s (after_recv c (s0, E_OK))) by (eapply ap_trans; eauto). set (s4 := after_recv c (s0, E_OK)) in *. clearbody s4.
    destruct (adds_one c s s4 (far_log c _ _ A1)) as (l & L1 & L2 & L3 & L4). unfold view, shut_view in Q2. injection Q2 as Q2 Q3 Q4 Q5.
    exists l. split; [exact L1|]. split; [exact GR|]. split; [left; split; [exact L2|left; now split]|]. split; [|intro; contradiction].
    intros _. split; [exact CN|]. repeat (split; [congruence || apply A1|]). now left.
Qed.
(** An acceptance: the answer, whatever its result. *)
Lemma conclude_accept s s0 c m r e l0 : self s <> None -> log s0 = l0 ++ log s -> sent_on c l0 = [] -> removed l0 = [] -> self s0 = self s -> cf s0 = cf s ->
  view (cs s0 c) = in_view e -> grounds s m r 0%Z -> e < nexte s0 ->
  (forall s', apart c s0 s' \/ (routes s' = routes s0 /\ parent s' = parent s0 /\ forall x, x < nexte s0 -> d_ep (es s' x) = d_ep (es s0 x)) -> view (cs s' c) = in_view e ->
    forall l, added l = added l0 -> removed l = [] -> joined s s' c r l) ->
  let p := if k_fd (cs s0 c) then let (s2, z) := send_reg true c 0%Z (h_seq (m_head m)) s0 in (s2, z) else (s0, E_OK) in
  exists l, log (after_recv c p) = l ++ log s /\ conclusion s (after_recv c p) c m r l 0%Z.
Proof.
  intros SE L0 SN0 RM0 SS CC V GR LE J. cbv zeta. assert (VV := V). unfold view, in_view in VV. injection VV as V1 V2 V3 V4. rewrite V4.
  assert (SE0 : self s0 <> None) by now rewrite SS.
  destruct (send_reg_once c m 0%Z s0 SE0 (or_intror V2) V3) as (s1 & a & [F FV] & RP & S).
  destruct (send_reg true c 0%Z (h_seq (m_head m)) s0) as [s2 z]. cbn [fst snd] in S.
  assert (RP' : reply s m 0%Z a).
  { destruct RP as (R1 & R2 & R3 & R4 & q & R5 & R6 & R7 & R8). rewrite CC in R7, R8. unfold my_id in R3, R6. rewrite SS in R3, R6.
    repeat (split; [assumption|]). exists q. auto. }
  destruct (adds_one c s0 s1 (far_log c _ _ F)) as (l1 & L1 & A1 & A2 & A3).
  destruct (hushed_after c (s2, z)) as (l3 & L3 & F3). cbn [fst] in L3. pose proof (hushed_sent c l3 F3) as S3.
  destruct S as [S|(S1 & S2 & ->)].
  - destruct (spoke_apart c a z s1 s2 S) as (P1 & P2 & P3 & l2 & L2 & B1 & B2 & B3).
    exists (l3 ++ l2 ++ l1 ++ l0). split; [rewrite L3, L2, L1, L0, !app_assoc; reflexivity|].
    assert (SA : sent_on c (l3 ++ l2 ++ l1 ++ l0) = [(a, z)]) by (rewrite !sent_app, S3, B1, A1, SN0; reflexivity).
    split; [exact GR|]. split; [right; exists a, z; now split|]. split; [intro X; now elim X|]. intros _ a' z' E Z. rewrite SA in E. injection E as <- <-.
    destruct (after_fine c s2 z Z) as [G GV].
    destruct (adds_one c s2 (after_recv c (s2, z)) (far_log c _ _ G)) as (l3' & L3' & C1 & C2 & C3).
    assert (E3 : l3' = l3) by (apply (app_inv_tail (log s2)); congruence). subst l3'.
    apply J.
    + right. split; [rewrite (far_r c _ _ G), P1; apply F|]. split; [rewrite (far_p c _ _ G), P2; apply F|]. intros x X.
      rewrite (far_e c _ _ G), P3 by (rewrite (sp_ne _ _ _ _ _ S); pose proof (far_ne c _ _ F); lia). now apply F.
    + rewrite GV, (sp_v _ _ _ _ _ S), FV. exact V.
    + now rewrite !added_app, C2, B2, A2.
    + now rewrite !removed_app, C3, B3, A3, RM0.
  - exists (l3 ++ l1 ++ l0). split; [rewrite L3, L1, L0, !app_assoc; reflexivity|].
    assert (SA : sent_on c (l3 ++ l1 ++ l0) = []) by (rewrite !sent_app, S3, A1, SN0; reflexivity).
    split; [exact GR|]. split; [|split; [intro X; now elim X|intros _ a' z' E; congruence]]. left. split; [exact SA|]. right. exists a. split; [exact RP'|].
    unfold too_big in *. now rewrite <- CC.
Qed.
Lemma grounds_other s m r code : ~ (h_ver (m_head m) < ver)%Z -> keys_ok (cf s) (r_keys r) = true -> code <> E_VERSION -> code <> E_ACCESS_DENY ->
  (code = E_ID_CONFLICT <-> my_id s <> 0 /\ taken s r) -> grounds s m r code.
Proof. intros V K N1 N2 C. apply key_fine_ok in K. split; [tauto|]. split; [tauto|]. assert (ver <= h_ver (m_head m))%Z by lia. tauto. Qed.
Lemma reg_req_done s c m r : waits c s -> Inv s -> self s <> None -> r_id r <> 0 -> modest (r_nets r) ->
  exists l code, log (after_recv c (reg_req c (m_head m) r s)) = l ++ log s /\ conclusion s (after_recv c (reg_req c (m_head m) r s)) c m r l code /\
    ((ver <= h_ver (m_head m))%Z -> keys_ok (cf s) (r_keys r) = true -> code = snd (reg_body c r s)).
Proof.
  intros W I SE Z M. pose proof W as [W1 W2 W3 W4 W5]. unfold reg_req. destruct (Z.ltb_spec (h_ver (m_head m)) ver) as [V|V].
  - assert (G : grounds s m r E_VERSION).
    { split; [tauto|]. split; (split; [discriminate|]); intros [X _]; lia. }
    destruct (conclude_refusal s s c m r E_VERSION W SE (ap_refl c s) (or_introl eq_refl) eq_refl G) as (l & L). exists l, E_VERSION.
    rewrite W5 in L. cbn [Z.eqb orb] in L. unfold reg_deny. destruct (send_reg true c E_VERSION _ s) as [s2 z]. destruct L as [L1 L2].
    split; [exact L1|]. split; [exact L2|]. intro. lia.
  - destruct (keys_ok (cf s) (r_keys r)) eqn:K; cbn [negb].
    2:{ assert (G : grounds s m r E_ACCESS_DENY).
        { assert (NK : ~ key_fine (cf s) (r_keys r)) by (rewrite key_fine_ok; congruence). split; [split; [discriminate|lia]|]. split; [tauto|].
          split; [discriminate|tauto]. }
        destruct (conclude_refusal s s c m r E_ACCESS_DENY W SE (ap_refl c s) (or_introl eq_refl) eq_refl G) as (l & L). exists l, E_ACCESS_DENY.
        rewrite W5 in L. change ((E_ACCESS_DENY =? E_VERSION)%Z || (E_ACCESS_DENY =? E_ACCESS_DENY)%Z) with true in L. cbv iota in L. unfold reg_deny.
        destruct (send_reg true c E_ACCESS_DENY _ s) as [s2 z]. destruct L as [L1 L2]. split; [exact L1|]. split; [exact L2|]. intros _ X. discriminate X. }
    assert (NV : ~ (h_ver (m_head m) < ver)%Z) by lia.
    pose proof (reg_body_decided c r s W I Z (modest_peer (r_id r) _ M)) as D. destruct (reg_body c r s) as [s0 code]. cbn [fst snd] in D |- *.
    assert (REF : (code < 0)%Z -> code <> E_VERSION -> code <> E_ACCESS_DENY -> apart c s s0 -> view (cs s0 c) = view (cs s c) \/ view (cs s0 c) = shut_view ->
      (code = E_ID_CONFLICT <-> my_id s <> 0 /\ taken s r) -> exists l code0,
      log (after_recv c (if k_fd (cs s0 c) then let (s1, ret) := send_reg true c code (h_seq (m_head m)) s0 in (if (code <? 0)%Z then conn_reset c s1 else s1, ret) else (s0, E_OK))) = l ++ log s /\
      conclusion s (after_recv c (if k_fd (cs s0 c) then let (s1, ret) := send_reg true c code (h_seq (m_head m)) s0 in (if (code <? 0)%Z then conn_reset c s1 else s1, ret) else (s0, E_OK))) c m r l code0 /\ ((ver <= h_ver (m_head m))%Z -> true = true -> code0 = code)).
    { intros C0 C1 C2 A VW GC. destruct (conclude_refusal s s0 c m r code W SE A VW C0 (grounds_other s m r code NV K C1 C2 GC)) as (l & L). exists l, code.
      apply Z.ltb_lt in C0. rewrite C0. apply Z.eqb_neq in C1. apply Z.eqb_neq in C2. rewrite C1, C2 in L. destruct L as [L1 L2]. split; [exact L1|]. split; [exact L2|reflexivity]. }
    assert (NT : get_endpoint s (r_id r) = None -> ~ taken s r) by (intros G0 (e & G1 & _); congruence).
    assert (KN : forall e, get_endpoint s (r_id r) = Some e -> (my_id s <> 0 /\ taken s r <-> other_process s r e)).
    { intros e G. unfold taken, other_process. split; [intros (X1 & e' & X2 & X3)|intros (X1 & X2)]; [|split; [exact X1|eauto]].
      assert (e' = e) by congruence. subst e'. now split. }
    destruct D as [e G OP FA|z ZN N1 N2 N3 G FA|z ZN N1 N2 N3 G AP VW|e G OP AP VW|e s1 s2 G EI ER DE A1 L1 A2 TB CF SS VW LE].
    + destruct FA as [FA FV]. apply REF; try discriminate; trivial; [reflexivity|now left|]. specialize (KN e G). tauto.
    + destruct FA as [FA FV]. apply REF; trivial; [now left|]. specialize (NT G). tauto.
    + apply REF; trivial; [now right|]. specialize (NT G). tauto.
    + pose proof (get_endpoint_alive s (r_id r) e I G) as [[AL1 AL2] AL3].
      destruct (adds_one c s s0 (far_log c _ _ AP)) as (l0 & L0 & B1 & B2 & B3).
      assert (GR : grounds s m r 0%Z) by (apply grounds_other; trivial; try discriminate; specialize (KN e G); split; [discriminate|tauto]).
      destruct (conclude_accept s s0 c m r (e_ref e) l0 SE L0 B1 B3) as (l & L); trivial; try apply AP; [pose proof (far_ne c _ _ AP); lia| |exists l, 0%Z; destruct L as [X1 X2]; split; [exact X1|]; split; [exact X2|reflexivity]].
      intros s' A V' l AD RM. unfold view, in_view in V'. injection V' as V1 V2 V3 V4.
      assert (A' : routes s' = routes s0 /\ parent s' = parent s0 /\ (forall x, x < nexte s0 -> d_ep (es s' x) = d_ep (es s0 x))) by (destruct A as [A|A]; [repeat split; apply A|exact A]).
      destruct A' as (A'1 & A'2 & A'3).
      exists e. split; [exact V1|]. split; [exact V2|]. split; [rewrite A'3 by (pose proof (far_ne c _ _ AP); lia); rewrite (far_e c _ _ AP) by exact AL2; exact AL3|].
      assert (EI : e_id e = r_id r).
      { clear - G. unfold get_endpoint in G. destruct (is_parent s (r_id r)) eqn:P.
        - unfold is_parent in P. destruct (my_id s =? 0); [discriminate|]. rewrite G in P. apply N.eqb_eq in P. now symmetry.
        - destruct (find_route (routes s) (r_id r)) as [x|]; [|discriminate]. destruct (N.eqb_spec (e_id x) (r_id r)); [|discriminate]. now injection G as <-. }
      split; [exact EI|]. split; [exact RM|]. left. split; [exact G|]. split; [|split; [congruence|]; split; [rewrite A'1|rewrite A'2]; apply AP].
      destruct (N.eq_dec (my_id s) 0) as [E0|E0]; [now left|right]. specialize (KN e G). tauto.
    + assert (GR : grounds s m r 0%Z) by (apply grounds_other; trivial; try discriminate; specialize (NT G); split; [discriminate|tauto]).
      destruct (log3 c s s1 s2 s0 [TAdded (e_ref e)] A1 L1 A2) as (l0 & L0 & B1 & B2 & B3).
      destruct (conclude_accept s s0 c m r (e_ref e) l0 SE L0 B1 B3) as (l & L); trivial; [|exists l, 0%Z; destruct L as [X1 X2]; split; [exact X1|]; split; [exact X2|reflexivity]].
      intros s' A V' l AD RM. unfold view, in_view in V'. injection V' as V1 V2 V3 V4.
      assert (A' : routes s' = routes s0 /\ parent s' = parent s0 /\ (forall x, x < nexte s0 -> d_ep (es s' x) = d_ep (es s0 x))) by (destruct A as [A|A]; [repeat split; apply A|exact A]).
      destruct A' as (A'1 & A'2 & A'3). exists e. split; [exact V1|]. split; [exact V2|]. split; [now rewrite A'3|]. split; [exact EI|]. split; [exact RM|].
      right. split; [exact G|]. split; [rewrite AD; exact B2|]. rewrite A'1, A'2. exact TB.
Qed.

Lemma registration s c n m r : reachable s -> self s <> None -> unregistered s c -> m_body m = BReg false r -> r_id r <> 0 -> modest (r_nets r) ->
  exists l code, log (recv_item c (RMsg n m) s) = l ++ log s /\ conclusion s (recv_item c (RMsg n m) s) c m r l code /\
    ((ver <= h_ver (m_head m))%Z -> keys_ok (cf s) (r_keys r) = true -> exists s1, s1 = on_c c (fun k => set_k_pull (bump (k_pull k) n) k) s /\ waits c s1 /\ code = snd (reg_body c r s1)).
Proof.
  intros R SE (U1 & U2 & U3 & U4) B Z M. pose proof (reachable_Inv s R) as I. cbn [recv_item]. cbv zeta. rewrite stamp_pull.
  assert (ST : stamp s c m = m) by (unfold stamp; destruct (I_conn s I c) as (_ & X & _); now rewrite (X U2)).
  rewrite ST, on_recv_eq. set (s1 := on_c c _ s). pose proof (Inv_pull c n s I) as I1. fold s1 in I1.
  assert (W : waits c s1).
  { assert (X : view (cs s1 c) = view (cs s c)) by (unfold s1; rewrite cs_on_c, N.eqb_refl; reflexivity).
    assert (NX : nextc s1 = nextc s) by reflexivity. clearbody s1. unfold view in X. injection X as X1 X2 X3 X4.
    destruct (I_conn s I c) as (_ & K & _). specialize (K U2). constructor; [now rewrite NX|congruence..]. }
  unfold dispatch_msg. rewrite B. destruct (reg_req_done s1 c m r W I1 SE Z M) as (l & code & L & C & D). exists l, code.
  split; [exact L|]. split; [exact C|]. intros V K. exists s1. split; [reflexivity|]. split; [exact W|]. now apply D.
Qed.

(** C58: a registration request on a connection whose peer is not registered yet is
    decided once, and the peer is told so at most once. *)
Theorem C58_registration s c n m r : reachable s -> self s <> None -> unregistered s c ->
  m_body m = BReg false r -> r_id r <> 0 -> modest (r_nets r) ->
  let s' := recv_item c (RMsg n m) s in exists l code, log s' = l ++ log s /\
    grounds s m r code /\
    ((sent_on c l = [] /\ (code <> 0%Z /\ k_st (cs s' c) = Disconnected \/ exists a, reply s m code a /\ too_big s a)) \/
     exists a z, sent_on c l = [(a, z)] /\ reply s m code a) /\
    (code <> 0%Z -> refused s s' c code l) /\
    (code = 0%Z -> forall a z, sent_on c l = [(a, z)] -> (0 <= z)%Z -> joined s s' c r l).
Proof. intros R SE U B Z M. destruct (registration s c n m r R SE U B Z M) as (l & code & L & C & _). now exists l, code. Qed.
Print Assumptions C58_registration.

(** ** A child that keeps the rules is accepted *)
(** The ids a peer asks for: its own and those of the blocks it announces. *)
Definition asked (r : reg) (i : N) : Prop := i = r_id r \/ exists c, In c (r_nets r) /\ in_conf (c_prefix c, c_mask c) i.
(** Its blocks lie inside one of those of the node [s] but do not cover all of them, and
    nobody else has any of them. *)
Record legitimate (s : node) (r : reg) : Prop := {
  g_nonzero : forall c, In c (r_nets r) -> c_prefix c <> 0;
  g_inside : exists p, In p (map iv (my_subs s)) /\ forall i, asked r i -> in_iv p i;
  g_part : exists i, in_ivs (map iv (my_subs s)) i /\ ~ asked r i;
  g_free : forall x i, In x (routes s) -> asked r i -> ~ in_iv (iv (fst x)) i;
  g_parent : forall p, parent s = Some p -> e_id p <> r_id r }.

Lemma asked_confs r confs l : r_id r <> 0 -> (forall c, In c (r_nets r) -> c_prefix c <> 0) -> reg_confs (r_id r) (r_nets r) = Some confs ->
  endpoint_subnets (r_id r) confs = Some l -> forall i, rs_in l i <-> asked r i.
Proof.
  intros Z P R E i. destruct (endpoint_subnets_spec _ _ _ Z E) as [_ H]. rewrite H. unfold asked. unfold reg_confs in R.
  assert (X : forall cs, (forall c, In c cs -> c_prefix c <> 0) ->
    ((exists c, In c cs /\ in_conf (if c_prefix c =? 0 then r_id r else c_prefix c, c_mask c) i) <-> exists c, In c cs /\ in_conf (c_prefix c, c_mask c) i)).
  { intros cs Q. split; intros (c & C & D); exists c; (split; [exact C|]); specialize (Q c C); apply N.eqb_neq in Q; rewrite Q in *; exact D. }
  destruct (existsb_opt _ _) as [[]|]; try discriminate; injection R as <-.
  - rewrite (X _ P). tauto.
  - rewrite X.
    + split; [intros [->|(c & C & D)]; [now left|]|intros [->|(c & C & D)]; [now left|right; exists c; split; [apply in_or_app; now left|exact D]]].
      apply in_app_or in C. destruct C as [C|[<-|[]]]; [right; eauto|]. left. unfold in_conf in D. cbn in D. now rewrite !N.div_1_r in D.
    + intros c C. apply in_app_or in C. destruct C as [C|[<-|[]]]; [now apply P|exact Z].
Qed.
Lemma legit_code s c r : waits c s -> NodeReach.idle s -> routed_ok s -> settled s -> my_id s <> 0 -> Forall wf (my_subs s) -> Forall RouteProof.good (my_subs s) ->
  r_id r <> 0 -> modest (r_nets r) -> legitimate s r -> k_addr (cs s c) <> x_parent (cf s) -> snd (reg_body c r s) = 0%Z.
Proof.
  intros W ID RO SE MI WF GD Z M [G1 G3 G4 G5 G6] KA. pose proof W as [W1 W2 W3 W4 W5]. destruct (RO SE) as [(live & [S1 S2 S3 S4]) _].
  unfold reg_body, is_connected. rewrite W2. cbn [cst_eqb]. destruct (N.eqb_spec (r_id r) 0) as [?|_]; [contradiction|].
  assert (GE : get_endpoint s (r_id r) = None).
  { unfold get_endpoint. assert (P : is_parent s (r_id r) = false).
    { unfold is_parent. destruct (my_id s =? 0); [reflexivity|]. destruct (parent s) as [p|]; [|reflexivity]. apply N.eqb_neq. intro E. now apply (G6 p). }
    rewrite P. destruct (find_route (routes s) (r_id r)) as [e|] eqn:F; [|reflexivity]. destruct (N.eqb_spec (e_id e) (r_id r)) as [E|]; [|reflexivity]. exfalso.
    destruct (find_route_in _ _ _ F) as (k & K). apply S3 in K. destruct K as [K1 K2]. rewrite Forall_forall in S4. destruct (S4 e K1) as (_ & _ & q & Q1 & Q2).
    apply (G5 (q, e) (r_id r)); [apply S3; now split|now left|]. unfold in_iv, iv. cbn [fst snd]. now rewrite <- E. }
  rewrite GE. pose proof (modest_peer (r_id r) _ M) as U. unfold peer_subnets in U.
  destruct (reg_confs (r_id r) (r_nets r)) as [confs|] eqn:RC; [|congruence]. destruct (endpoint_subnets (r_id r) confs) as [subs|] eqn:ES; [|congruence].
  pose proof (asked_confs r confs subs Z G1 RC ES) as AS. destruct (endpoint_subnets_spec _ _ _ Z ES) as [WS _].
  assert (SC : subnets_contain_conf (my_subs s) confs = true).
  { assert (NZ : Forall (fun c => c_prefix c <> 0) confs /\ forall c, In c confs -> In c (r_nets r) \/ c = {| c_prefix := r_id r; c_mask := 0 |}).
    { unfold reg_confs in RC. destruct (existsb_opt _ _) as [[]|]; try discriminate; injection RC as <-.
      - split; [apply Forall_forall; exact G1|auto].
      - split; [apply Forall_app; split; [apply Forall_forall; exact G1|constructor; [exact Z|constructor]]|]. intros c0 X. apply in_app_or in X. destruct X as [X|[X|[]]]; auto. }
    destruct NZ as [NZ CC]. apply (conf_contain_iff _ _ WF NZ). intros c0 C0. destruct G3 as (p & P1 & P2). apply in_map_iff in P1. destruct P1 as (q & <- & Q).
    exists q. split; [exact Q|]. intros i D. apply P2. destruct (CC c0 C0) as [X| ->]; [right; eauto|]. left. unfold in_conf in D. cbn in D. now rewrite !N.div_1_r in D. }
  rewrite SC. rewrite Bool.andb_false_r.
  pose proof (far_ep_create c (r_id r) subs (r_pid r) (r_host r) s) as [FC _].
  assert (KC : cs (fst (ep_create (r_id r) subs (r_pid r) (r_host r) s)) = cs s) by (unfold ep_create; cbn [fst]; now rewrite (keeps (f := cs) (g := insert_ping _))).
  assert (FR : fl_reset (fst (ep_create (r_id r) subs (r_pid r) (r_host r) s)) = fl_reset s) by (unfold ep_create; cbn [fst]; now rewrite (keeps (f := fl_reset) (g := insert_ping _))).
  assert (EC : snd (ep_create (r_id r) subs (r_pid r) (r_host r) s) = {| e_ref := nexte s; e_id := r_id r; e_subs := subs |}) by reflexivity.
  destruct (ep_create (r_id r) subs (r_pid r) (r_host r) s) as [s1 e]. cbn [fst snd] in *.
  rewrite KC, (far_cf c _ _ FC). destruct (bytes_eqb (k_addr (cs s c)) (x_parent (cf s))) eqn:BE; [apply bytes_eqb_true in BE; contradiction|].
  change (negb (E_OK =? E_OK)%Z) with false. cbv iota.
  assert (MY : my_id s1 = my_id s /\ my_subs s1 = my_subs s) by (unfold my_id, my_subs; now rewrite (far_s c _ _ FC)). destruct MY as [MY1 MY2].
  assert (AE : exists s2, add_endpoint e s1 = (s2, E_OK)).
  { unfold add_endpoint. destruct (idle_flags s ID) as [F0 _]. rewrite FR, F0, MY1, MY2. assert (N0 : my_id s =? 0 = false) by now apply N.eqb_neq. rewrite N0. cbn [negb andb].
    rewrite EC. cbn [e_subs e_id e_ref].
    assert (NC : subnets_contain subs (my_subs s) = false).
    { apply Bool.not_true_is_false. intro T. destruct G4 as (i & (p & P1 & P2) & NA). apply in_map_iff in P1. destruct P1 as (q & <- & Q).
      destruct (subnets_contain_sound subs (my_subs s) WF T q Q) as (_ & p & P3 & P4). apply NA. apply AS. exists p. split; [exact P3|]. exact (P4 i P2). }
    rewrite NC.
    assert (SB : subnets_contain (my_subs s) subs = true).
    { apply subnets_contain_complete; [exact WS|]. intros q Q. rewrite Forall_forall in WS, GD.
      destruct G3 as (p & P1 & P2). apply in_map_iff in P1. destruct P1 as (o & <- & O). destruct (WS q Q) as (_ & k & K1 & K2).
      assert (A1 : in_iv (iv o) (g_min q)) by (apply P2, AS; exists q; split; [exact Q|lia]).
      assert (A2 : in_iv (iv o) (g_max q)) by (apply P2, AS; exists q; split; [exact Q|lia]).
      destruct (GD o O) as [O1 _]. unfold in_iv, iv in *. cbn [fst snd] in *. split; [lia|]. exists o. split; [exact O|]. lia. }
    rewrite SB. cbn [negb]. rewrite Bool.andb_false_r. rewrite (far_r c _ _ FC). unfold insert_child. cbn [e_subs].
    assert (CF : check_conflicts (routes s) subs = false).
    { assert (GS : Forall RouteProof.good subs).
      { apply Forall_forall. intros q Q. rewrite Forall_forall in WS, GD. destruct (WS q Q) as (_ & k & K1 & K2). destruct G3 as (p & P1 & P2). apply in_map_iff in P1.
        destruct P1 as (o & <- & O). assert (A1 : in_iv (iv o) (g_min q)) by (apply P2, AS; exists q; split; [exact Q|lia]). destruct (GD o O) as [O1 _].
        unfold in_iv, iv in A1. cbn [fst snd] in A1. split; lia. }
      apply (check_conflicts_exact _ _ S1 S2 GS). intros q x Q X. rewrite Forall_forall in GS. destruct (GS q Q) as [Q1 Q2].
      unfold cgood in S1. rewrite Forall_forall in S1. destruct (S1 x X) as [X1 X2]. unfold RouteProof.apart.
      destruct (N.le_gt_cases (g_min q) (g_max (fst x))) as [L1|L1]; [|now left]. destruct (N.le_gt_cases (g_min (fst x)) (g_max q)) as [L2|L2]; [|now right]. exfalso.
      apply (G5 x (N.max (g_min q) (g_min (fst x))) X); [apply AS; exists q; split; [exact Q|lia]|]. unfold in_iv, iv. cbn [fst snd]. lia. }
    rewrite CF. eauto. }
  destruct AE as (s2 & AE). rewrite AE. reflexivity.
Qed.

(** C58: a child that keeps the rules is accepted, in every reachable state. *)
Theorem C58_child_accepted s c n m r : reachable s -> settled s -> my_id s <> 0 -> unregistered s c -> m_body m = BReg false r -> r_id r <> 0 -> modest (r_nets r) ->
  endpoint_subnets (my_id s) (x_nets (cf s)) = Some (my_subs s) -> ~ in_ivs (map iv (my_subs s)) 0 ->
  (ver <= h_ver (m_head m))%Z -> key_fine (cf s) (r_keys r) -> legitimate s r -> k_addr (cs s c) <> x_parent (cf s) ->
  let s' := recv_item c (RMsg n m) s in exists l, log s' = l ++ log s /\
    ((sent_on c l = [] /\ exists a, reply s m 0%Z a /\ too_big s a) \/
     exists a z, sent_on c l = [(a, z)] /\ reply s m 0%Z a /\ ((0 <= z)%Z -> joined s s' c r l)).
Proof.
  intros R ST MI U B Z M OW N0 V K LG KA. cbv zeta. destruct (endpoint_subnets_spec _ _ _ MI OW) as [WF _].
  assert (GD : Forall RouteProof.good (my_subs s)).
  { apply Forall_forall. intros q Q. rewrite Forall_forall in WF. destruct (WF q Q) as (_ & k & K1 & K2). split; [|lia].
    destruct (N.eq_dec (g_min q) 0) as [E|]; [|lia]. exfalso. apply N0, rs_in_ivs. exists q. split; [exact Q|lia]. }
  assert (SE : self s <> None) by (intro X; apply MI; unfold my_id; now rewrite X).
  destruct (registration s c n m r R SE U B Z M) as (l & code & L & (C1 & C2 & C3 & C4) & D). apply key_fine_ok in K.
  destruct (D V K) as (s1 & E1 & W & E2).
  assert (X : snd (reg_body c r s1) = 0%Z).
  { apply legit_code; trivial; subst s1; trivial; try apply (reachable_good s R); try now apply (reachable_routed s R).
    - destruct LG as [G1 G3 G4 G5 G6]. constructor; trivial.
    - rewrite cs_on_c, N.eqb_refl. exact KA. }
  rewrite X in E2. subst code. exists l. split; [exact L|]. destruct C2 as [(C2 & [[X1 _]|C5])|(a & z & S & RP)]; [contradiction|left; now split|]. right. exists a, z. split; [exact S|]. split; [exact RP|].
  intro P. exact (C4 eq_refl a z S P).
Qed.
Print Assumptions C58_child_accepted.

(** ** Cases *)
Definition join0 id pid nets := msg0 id (BReg false {| r_id := id; r_pid := pid; r_host := [2]; r_chans := [adr]; r_keys := []; r_nets := nets |}).
Definition block : sconf := {| c_prefix := 66048; c_mask := 8 |}.
(** The node has the child 65540; 66051 asks for 66048-66303 and joins, 65540 from another
    process is refused and cut off. *)
Example C58_case : exists s, reachable s /\ settled s /\ self s <> None /\ unregistered s 4 /\ my_id s = 65536 /\ get_endpoint s 65540 <> None /\
  modest [block] /\ modest [] /\ legitimate s {| r_id := 66051; r_pid := 9; r_host := [2]; r_chans := [adr]; r_keys := []; r_nets := [block] |} /\
  endpoint_subnets (my_id s) (x_nets (cf s)) = Some (my_subs s) /\ ~ in_ivs (map iv (my_subs s)) 0 /\ k_addr (cs s 4) <> x_parent (cf s) /\
  (exists l a, log (recv_item 4 (RMsg 60 (join0 66051 9 [block])) s) = l ++ log s /\ sent_on 4 l = [(a, 0%Z)] /\ h_ret (m_head a) = 0%Z /\ added l = [3]) /\
  (exists l a, log (recv_item 4 (RMsg 60 (join0 65540 10 [])) s) = l ++ log s /\ sent_on 4 l = [(a, 0%Z)] /\ h_ret (m_head a) = E_ID_CONFLICT /\ added l = []) /\
  k_st (cs (recv_item 4 (RMsg 60 (join0 65540 10 [])) s) 4) = Disconnected.
Proof.
  observe (fun s => (log s, self s, nextc s, k_st (cs s 4), k_kind (cs s 4), k_fd (cs s 4), option_map e_id (get_endpoint s 65540), k_addr (cs s 4), x_parent (cf s), x_nets (cf s),
      parent s, routes s, d_ep (es s 2), log (recv_item 4 (RMsg 60 (join0 66051 9 [block])) s), log (recv_item 4 (RMsg 60 (join0 65540 10 [])) s),
      k_st (cs (recv_item 4 (RMsg 60 (join0 65540 10 [])) s) 4)))
    (boot 65540 [] ++ [EIo (IAccepted adr2)]).
  injection E as E1 E2 E3 E4 E5 E6 E7 E8 E9 E10 E11 E12 E13 E14 E15 E16. exists s. split; [exact R|]. split.
  { intros e H. rewrite E1 in H. cbn [In] in H. assert (e = 2) as -> by (intuition congruence). rewrite E13. unfold good_ep. cbn [e_subs e_id].
    split; [repeat constructor; unfold RouteProof.good; cbn; lia|]. split; [repeat constructor|]. eexists. split; [now left|]. cbn. lia. }
  assert (MS : my_subs s = [{| g_prefix := 65536; g_mask := 16; g_min := 65536; g_max := 131071 |}]) by (unfold my_subs; rewrite E2; reflexivity).
  assert (MI : my_id s = 65536) by (unfold my_id; rewrite E2; reflexivity).
  split; [rewrite E2; discriminate|]. split; [unfold unregistered; rewrite E3, E4, E5, E6; now repeat split|]. split; [exact MI|].
  split; [intro X; rewrite X in E7; discriminate|]. split; [unfold modest, ids_of; cbn; lia|]. split; [unfold modest, ids_of; cbn; lia|].
  assert (AK : forall i, asked {| r_id := 66051; r_pid := 9; r_host := [2]; r_chans := [adr]; r_keys := []; r_nets := [block] |} i -> 66048 <= i <= 66303).
  { intros i [X|(c & [X|[]] & Y)]; [cbn in X; lia|]. subst c. unfold in_conf, block in Y. cbn [fst snd c_prefix c_mask] in Y. change (66048 / 2 ^ 8) with 258 in Y.
    change (2 ^ 8) with 256 in Y. pose proof (N.div_mod i 256 ltac:(lia)) as D. pose proof (N.mod_lt i 256 ltac:(lia)). lia. }
  split.
  { constructor.
    - intros c [<-|[]]. discriminate.
    - rewrite MS. eexists. split; [now left|]. intros i X. apply AK in X. unfold in_iv, iv. cbn [fst snd g_min g_max]. lia.
    - exists 65536. split; [|intro X; apply AK in X; lia]. rewrite MS. eexists. split; [now left|]. unfold in_iv, iv. cbn [fst snd g_min g_max]. lia.
    - intros x i X Y. apply AK in Y. rewrite E12 in X. destruct X as [<-|[]]. unfold in_iv, iv. cbn [fst snd g_min g_max]. lia.
    - intros p X. rewrite E11 in X. discriminate. }
  split; [rewrite MI, MS, E10; vm_compute; reflexivity|]. split.
  { rewrite MS. intros (i & [<-|[]] & X). unfold in_iv, iv in X. cbn [fst snd g_min g_max] in X. lia. }
  split; [rewrite E8, E9; discriminate|]. split; [|split; [|exact E16]].
  - match type of E14 with _ = ?b => match type of E1 with _ = ?a => let n := eval vm_compute in (length b - length a)%nat in exists (firstn n b) end end.
    eexists. split; [etransitivity; [exact E14|rewrite E1; reflexivity]|]. split; [reflexivity|]. now split.
  - match type of E15 with _ = ?b => match type of E1 with _ = ?a => let n := eval vm_compute in (length b - length a)%nat in exists (firstn n b) end end.
    eexists. split; [etransitivity; [exact E15|rewrite E1; reflexivity]|]. split; [reflexivity|]. now split.
Qed.
(** Nothing protects the own id: a peer that claims the id of the node itself is accepted
    as its child, and with the same subnets as its parent, though no parent is configured. *)
Theorem C58_own_id_refuted : exists s, reachable s /\ my_id s = 65536 /\ parent s = None /\ x_parent (cf s) = [] /\ unregistered s 2 /\
  (exists l a e, log (recv_item 2 (RMsg 60 (join0 65536 10 [])) s) = l ++ log s /\ sent_on 2 l = [(a, 0%Z)] /\ h_ret (m_head a) = 0%Z /\
    In e (map snd (routes (recv_item 2 (RMsg 60 (join0 65536 10 [])) s))) /\ e_id e = 65536) /\
  (exists l a e, log (recv_item 2 (RMsg 60 (join0 65536 10 [{| c_prefix := 65536; c_mask := 16 |}])) s) = l ++ log s /\ sent_on 2 l = [(a, 0%Z)] /\ h_ret (m_head a) = 0%Z /\
    parent (recv_item 2 (RMsg 60 (join0 65536 10 [{| c_prefix := 65536; c_mask := 16 |}])) s) = Some e /\ e_id e = 65536).
Proof.
  observe (fun s => (log s, my_id s, parent s, x_parent (cf s), (nextc s, k_st (cs s 2), k_kind (cs s 2), k_fd (cs s 2)),
      (log (recv_item 2 (RMsg 60 (join0 65536 10 [])) s), routes (recv_item 2 (RMsg 60 (join0 65536 10 [])) s)),
      (log (recv_item 2 (RMsg 60 (join0 65536 10 [{| c_prefix := 65536; c_mask := 16 |}])) s), parent (recv_item 2 (RMsg 60 (join0 65536 10 [{| c_prefix := 65536; c_mask := 16 |}])) s))))
    [EInit 65536 cfg0; EStart 100; EListen adr; EIo (IAccepted adr2)].
  injection E as E1 E2 E3 E4 E5 E6 E7 E8 E9 E10 E11 E12. exists s. repeat (split; [assumption|]).
  split; [unfold unregistered; rewrite E5, E6, E7, E8; now repeat split|]. split.
  - match type of E9 with _ = ?b => match type of E1 with _ = ?a => let n := eval vm_compute in (length b - length a)%nat in exists (firstn n b) end end.
    eexists. match type of E10 with _ = (_, ?x) :: _ => exists x end. split; [etransitivity; [exact E9|rewrite E1; reflexivity]|]. split; [reflexivity|]. split; [reflexivity|].
    split; [|reflexivity]. match type of E10 with _ = ?v => assert (Y : routes (recv_item 2 (RMsg 60 (join0 65536 10 [])) s) = v) by exact E10 end. rewrite Y. now left.
  - match type of E11 with _ = ?b => match type of E1 with _ = ?a => let n := eval vm_compute in (length b - length a)%nat in exists (firstn n b) end end.
    do 2 eexists. split; [etransitivity; [exact E11|rewrite E1; reflexivity]|]. split; [reflexivity|]. split; [reflexivity|]. split; [exact E12|reflexivity].
Qed.
Print Assumptions C58_own_id_refuted.
