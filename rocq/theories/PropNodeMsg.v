(** Sending and forwarding: C25, C27, C29, C31. *)
From Verif Require Import Base Subnet Route RouteProof Address NodeTypes NodeConn NodeCore NodeMsg Node
  NodeFrame NodeReset NodeInv NodeKeep NodeSteps NodeReach NodeSpec NodeLog NodeNotice NodeRoute NodeTrace NodeHandle NodeAuth NodeExample.
Local Open Scope N_scope.
Ltac Zify.zify_post_hook ::= idtac.

Lemma adds_gained P s s' t : adds P s s' -> gained s s' t -> P t.
Proof.
  intros (l & L & F) (l' & L' & I). rewrite L in L'. apply app_inv_tail in L'. subst l'. rewrite Forall_forall in F. now apply F.
Qed.
Lemma gained_in s s' t l : log s' = l ++ log s -> In t l -> gained s s' t. Proof. intros L I. now exists l. Qed.

(** ** C25: the next hop *)
(** The specification: which directly connected node a message for [id] goes to.
    [covers x id]: [id] lies in one of the subnets of [x]. *)
Definition own (s : node) (id : N) : Prop := exists r, In r (my_subs s) /\ g_min r <= id <= g_max r.
Inductive next (s : node) (id : N) : option ep -> Prop :=
| To_parent p : parent s = Some p -> e_id p = id -> next s id (Some p)
| To_peer r x : (forall p, parent s = Some p -> e_id p <> id) -> In (r, x) (routes s) -> covers x id -> next s id (Some x)
| Up p : parent s = Some p -> e_id p <> id -> (forall q, In q (routes s) -> ~ covers (snd q) id) -> ~ own s id -> next s id (Some p)
| Nowhere : (forall p, parent s = Some p -> e_id p <> id) -> (forall q, In q (routes s) -> ~ covers (snd q) id) ->
    own s id \/ parent s = None -> next s id None.

Lemma is_child_own s id : id <> 0 -> my_id s <> 0 -> (is_child s id = true <-> own s id).
Proof.
  intros I0 M0. unfold is_child, ep_is_child, own, contain_id. apply N.eqb_neq in M0. rewrite M0, existsb_exists.
  apply N.eqb_neq in I0. rewrite I0. split; intros (r & R & X); exists r; (split; [exact R|]).
  - apply andb_prop in X. rewrite !N.leb_le in X. tauto.
  - apply andb_true_intro. rewrite !N.leb_le. tauto.
Qed.
Lemma next_hop_next s id : reachable s -> settled s -> id <> 0 -> next s id (next_hop s id).
Proof.
  intros R S I0. pose proof (reachable_Inv s R) as I. unfold next_hop, is_parent.
  destruct (N.eqb_spec (my_id s) 0) as [M0|M0].
  - assert (P : parent s = None).
    { destruct (parent s) as [p|] eqn:P; [|reflexivity]. elim (I_parent s I); [rewrite P; discriminate|exact M0]. }
    assert (NP : forall p, parent s = Some p -> e_id p <> id) by (rewrite P; discriminate).
    destruct (lookup_spec s id R S) as [F1 F2]. destruct (find_route (routes s) id) as [x|].
    + destruct (F1 x eq_refl) as [[r X] C]. rewrite (proj2 (ep_is_child_covers x id (routed_id s _ R X) I0) C). now apply (To_peer s id r).
    + assert (is_child s id = false) as -> by (unfold is_child; now rewrite M0). rewrite P. apply Nowhere; auto.
  - destruct (parent s) as [p|] eqn:P.
    + destruct (N.eqb_spec id (e_id p)) as [E|E]; [now apply To_parent|].
      assert (NP : forall q, parent s = Some q -> e_id q <> id) by (rewrite P; intros q [= <-]; congruence).
      destruct (lookup_spec s id R S) as [F1 F2]. destruct (find_route (routes s) id) as [x|].
      * destruct (F1 x eq_refl) as [[r X] C]. rewrite (proj2 (ep_is_child_covers x id (routed_id s _ R X) I0) C). now apply (To_peer s id r).
      * destruct (is_child s id) eqn:CH; [apply Nowhere; auto; left; now apply is_child_own|].
        apply Up; auto. intro O. apply is_child_own in O; trivial. congruence.
    + assert (NP : forall q, parent s = Some q -> e_id q <> id) by (rewrite P; discriminate).
      destruct (lookup_spec s id R S) as [F1 F2]. destruct (find_route (routes s) id) as [x|].
      * destruct (F1 x eq_refl) as [[r X] C]. rewrite (proj2 (ep_is_child_covers x id (routed_id s _ R X) I0) C). now apply (To_peer s id r).
      * destruct (is_child s id); apply Nowhere; auto.
Qed.
(** What goes out. *)
Definition as_sent (s : node) (to : N) (ty : Z) (b : bytes) (want : bool) (q : N) (m : msg) : Prop :=
  m_body m = BData false {| w_from := my_id s; w_to := to; w_router := [my_id s]; w_content := b; w_flags := if want then 1 else 0 |} /\
  h_type (m_head m) = ty /\ h_src (m_head m) = my_id s /\ h_seq (m_head m) <> 0 /\ (q <> 0 -> h_seq (m_head m) = q).
Lemma send_on_cases c m s : (snd (send_on c m s) < 0)%Z /\ log (fst (send_on c m s)) = log s \/
  exists n, log (fst (send_on c m s)) = TSend c m n (snd (send_on c m s)) :: log s.
Proof.
  unfold send_on. destruct (_ <? _); [left; split; [reflexivity|reflexivity]|]. unfold push. cbv zeta.
  destruct (k_st _); try (left; split; reflexivity).
  all: destruct (k_kind _); try (left; split; reflexivity).
  all: unfold take_orc; cbn [orc on_c]; destruct (orc _) as [|z o]; right; cbn [snd fst]; eexists; destruct (_ <? 0)%Z; reflexivity.
Qed.
Lemma alloc_pos s : snd (alloc_seq s) <> 0.
Proof. unfold alloc_seq. cbv zeta. cbn [snd]. destruct (N.eqb_spec (wrap64 (seqn s + 1)) 0) as [E|E]; [discriminate|exact E]. Qed.
Lemma remote_seqn v s id : remote true (set_seqn v s) id = remote true s id.
Proof.
  assert (A : forall c l, ins_conn (set_seqn v s) c l = ins_conn s c l) by (intros c l; induction l as [|x l IH]; [reflexivity|cbn [ins_conn]; now rewrite IH]).
  assert (B : forall l, sort_conns (set_seqn v s) l = sort_conns s l)
    by (intro l; unfold sort_conns; induction l as [|x l IH]; [reflexivity|cbn [fold_right]; now rewrite IH, A]).
  assert (P : forall e, pick true (set_seqn v s) e = pick true s e) by (intro e; unfold pick, data_conn; cbn [es set_seqn]; rewrite B; reflexivity).
  unfold remote. change (self (set_seqn v s)) with (self s). destruct (self s) as [se|]; [|reflexivity]. change (nst (set_seqn v s)) with (nst s).
  change (my_id (set_seqn v s)) with (my_id s). change (next_hop (set_seqn v s) id) with (next_hop s id). change (is_child (set_seqn v s) id) with (is_child s id).
  destruct (next_hop s id) as [e|]; [now rewrite P|reflexivity].
Qed.
Lemma remote_next s id : reachable s -> settled s -> nst s <> NCreated -> self s <> None -> id <> 0 -> id <> my_id s ->
  exists hop, next s id hop /\
    match hop with
    | None => exists z, remote true s id = (z, None, None) /\ (z = E_INVALID_ID \/ z = E_NO_CONNECTION)
    | Some x => remote true s id = (E_NO_CONNECTION, Some x, None) \/
        exists c, remote true s id = (E_OK, Some x, Some c) /\ k_bind (cs s c) = Some (e_ref x) /\ k_st (cs s c) = Connected
    end.
Proof.
  intros R S N SE I0 M. exists (next_hop s id). split; [now apply next_hop_next|].
  assert (X : remote true s id = match next_hop s id with
               | None => ((if is_child s id then E_INVALID_ID
                     else match find_route (routes s) id with
                          | Some _ => E_NO_CONNECTION | None => E_INVALID_ID end), None, None)
               | Some e => match pick true s e with
                   | None => (E_NO_CONNECTION, Some e, None)
                   | Some c => (E_OK, Some e, Some c) end end).
  { unfold remote. destruct (self s); [|congruence]. apply N.eqb_neq in M. rewrite M. destruct (nst s); [congruence|reflexivity..]. }
  destruct (next_hop s id) as [x|].
  - destruct (pick true s x) as [c|]; [|now left]. right. exists c. split; [exact X|].
    destruct (remote_some true s id _ _ _ (reachable_Inv s R) X) as (_ & _ & _ & B & _ & ST & _). now split.
  - eexists. split; [exact X|]. destruct (is_child s id); [now left|]. destruct (find_route _ _); [now right|now left].
Qed.
Theorem C25_next_hop s to ty b want q s' r : reachable s -> settled s -> nst s <> NCreated -> self s <> None ->
  to <> 0 -> to <> my_id s -> N.of_nat (length b) <= x_msg (cf s) -> send_data to ty b want q s = (s', r) ->
  exists hop, next s to hop /\
    match hop with
    | None => (r = E_INVALID_ID \/ r = E_NO_CONNECTION) /\ log s' = log s
    | Some x => (r < 0)%Z /\ log s' = log s \/
        exists c m n, log s' = TSend c m n r :: log s /\ as_sent s to ty b want q m /\
          k_bind (cs s c) = Some (e_ref x) /\ k_st (cs s c) = Connected
    end.
Proof.
  intros R S N SE I0 M L E. destruct (remote_next s to R S N SE I0 M) as (hop & NX & H). exists hop. split; [exact NX|].
  unfold send_data in E. apply N.ltb_ge in L. rewrite L in E. apply N.eqb_neq in M.
  assert (E' : exists s1 v, (if q =? 0 then alloc_seq s else (s, q)) = (s1, v) /\ v <> 0 /\ (q <> 0 -> v = q) /\
    remote true s1 to = remote true s to /\ log s1 = log s /\ my_id s1 = my_id s /\ nst s1 = nst s /\ cs s1 = cs s /\
    send_to true to {| m_head := {| h_ver := ver; h_type := ty; h_ret := 0%Z; h_seq := v; h_src := my_id s |};
             m_body := BData false
               {| w_from := my_id s; w_to := to; w_router := [my_id s]; w_content := b;
                  w_flags := if want then 1 else 0 |} |} s1 = (s', r)).
  { destruct (nst s) eqn:NS; [congruence|..]; destruct (N.eqb_spec q 0) as [->|Q]; try (exists s, q; repeat split; auto; fail).
    all: pose proof (alloc_pos s) as AP; unfold alloc_seq in *; cbv zeta in *; cbn [snd] in AP; set (v := if _ =? 0 then 1 else _) in *;
      exists (set_seqn v s), v; repeat split; auto; try congruence; first [exact E|apply remote_seqn|idtac]. }
  destruct E' as (s1 & v & _ & V0 & VQ & RM & LG & ID & NS & CS & E'). clear E.
  set (m := {| m_head := _; m_body := _ |}) in E'. unfold send_to in E'. rewrite ID, M in E'. cbn [andb] in E'.
  assert (PO : post true to m s1 = match remote true s to with
     | (r, _, oc) => if (r <? 0)%Z then (s1, r) else match oc with None => (s1, E_NO_CONNECTION) | Some c => send_on c m s1 end end).
  { unfold post. rewrite NS, ID, M, RM. assert (NU : number m s1 = (s1, m)) by (unfold number; subst m; cbn [m_head h_seq]; apply N.eqb_neq in V0; now rewrite V0).
    rewrite NU. destruct (nst s); [congruence|reflexivity..]. }
  rewrite PO in E'. clear PO.
  destruct hop as [x|].
  - destruct H as [H|(c & H & B & ST)]; rewrite H in E'; cbn in E'.
    + injection E' as <- <-. left. split; [reflexivity|exact LG].
    + destruct (send_on_cases c m s1) as [[Z LL]|(n & LL)]; rewrite LG in LL.
      * destruct (send_on c m s1) as [s2 z]. cbn [fst snd] in *. injection E' as <- <-. now left.
      * right. exists c, m, n. destruct (send_on c m s1) as [s2 z]. cbn [fst snd] in *. injection E' as <- <-.
        split; [exact LL|]. split; [|now split]. unfold as_sent, m. cbn [m_body m_head h_type h_src h_seq]. repeat split; auto.
  - destruct H as (z & H & C). rewrite H in E'. destruct C as [-> | ->]; cbn in E'; injection E' as <- <-; split; auto.
Qed.
(** Without any assumption about how peers are configured: a target inside the own
    subnets that is not the parent itself is never sent to the parent. *)
Theorem C25_own_subnets_never_up s to ty b want q p c m n z : reachable s -> parent s = Some p -> e_id p <> to -> own s to -> to <> 0 -> to <> my_id s ->
  gained s (fst (send_data to ty b want q s)) (TSend c m n z) -> k_bind (cs s c) <> Some (e_ref p).
Proof.
  intros R P PI O I0 M G. pose proof (reachable_Inv s R) as I.
  assert (A : adds (fun t => match t with TSend c m _ _ => exists e, remote true s to = (E_OK, Some e, Some c) | _ => True end) s (fst (send_data to ty b want q s))).
  { assert (ST : forall mm s1, Inv s1 -> log s1 = log s -> remote true s1 to = remote true s to -> my_id s1 = my_id s -> adds (fun t => match t with TSend c m _ _ => exists e, remote true s to = (E_OK, Some e, Some c) | _ => True end) s (fst (send_to true to mm s1))).
    { intros mm s1 I1 L1 R1 M1. eapply adds_trans; [apply (adds_same _ s s1 L1)|]. unfold send_to. cbv zeta. apply N.eqb_neq in M.
      pose proof (post_adds (fun t => match t with TSend c m _ _ => exists e, remote true s to = (E_OK, Some e, Some c) | _ => True end) true to mm s1 I1) as A.
      destruct (post true to mm s1) as [s2 z2]. rewrite M1, M. cbn [andb fst] in *. apply A. intros e c' v' z' RR. exists e. now rewrite <- R1. }
    unfold send_data. destruct (nst s); [apply adds_refl|..]. all: destruct (_ <? _); [apply adds_refl|].
    all: destruct (q =? 0); [|now apply ST]. all: unfold alloc_seq; cbv zeta; apply ST; try reflexivity.
    all: try (eapply (steps_Inv true); [apply st_seqn|exact I]). all: apply remote_seqn. }
  pose proof (adds_gained _ _ _ _ A G) as (e & RM). cbn in RM.
  destruct (remote_some true s to _ _ _ I RM) as (_ & NH & _ & B & _ & _ & _). rewrite B. intros [= E].
  assert (M0 : my_id s <> 0) by (apply (I_parent s I); rewrite P; discriminate).
  assert (CH : is_child s to = true) by now apply is_child_own.
  unfold next_hop in NH. assert (IP : is_parent s to = false).
  { unfold is_parent. apply N.eqb_neq in M0. rewrite M0, P. apply N.eqb_neq. congruence. }
  rewrite IP, CH in NH. destruct (find_route (routes s) to) as [x|] eqn:F; [|discriminate].
  destruct (ep_is_child _ _ _); [|discriminate]. injection NH as ->. destruct (find_route_in _ _ _ F) as (k & K).
  pose proof (N_hist s (reachable_noticed s R) (e_ref e)) as H. rewrite E in H.
  assert (NA : entries (e_ref p) (routes s) <> 0%nat).
  { intro X. pose proof (proj1 (entries_none _ _) X (k, e) K). contradiction. }
  destruct H as [[_ X]|_ X|j [_ X] _]; [contradiction| |contradiction]. apply NA, X. now exists p.
Qed.
Example C25_case : exists s, reachable s /\ settled s /\ nst s <> NCreated /\ self s <> None /\
  snd (send_data 65540 7 [1;2] false 0 s) = 0%Z /\ snd (send_data 65541 7 [1;2] false 0 s) = E_INVALID_ID.
Proof.
  destruct (witness (fun s => (nst s, self s, log s, d_ep (es s 2), snd (send_data 65540 7 [1;2] false 0 s), snd (send_data 65541 7 [1;2] false 0 s)))
    (boot 65540 []) (ltac:(let v := eval vm_compute in (option_map (fun s => (nst s, self s, log s, d_ep (es s 2), snd (send_data 65540 7 [1;2] false 0 s), snd (send_data 65541 7 [1;2] false 0 s))) (run fuel0 (boot 65540 []) new_node)) in match v with Some ?x => exact x end)))
    as (s & R & E); [vm_compute; reflexivity|].
  injection E as E1 E2 E3 E4 E5 E6. exists s. split; [exact R|]. split.
  - intros e H. rewrite E3 in H. cbn [In] in H. assert (e = 2) as -> by (intuition congruence). rewrite E4. unfold good_ep. cbn [e_subs e_id].
    split; [repeat constructor; unfold good; cbn; lia|]. split; [repeat constructor|]. eexists. split; [now left|]. cbn. lia.
  - rewrite E1, E2, E5, E6. repeat split; discriminate.
Qed.

(** ** What one received message makes the node do *)
Lemma effect_level c h rsp w s s1 t : level s s1 -> effect c h rsp w s1 t -> effect c h rsp w s t.
Proof.
  intros L. assert (C : forall x, is_connected s1 x = is_connected s x) by (intro x; unfold is_connected; now rewrite (L_st _ _ L)).
  destruct t as [c' m n r|e [c'|] m|e [c'|] m| | | | | | | | | | | | | | | | | | | |]; cbn [effect]; trivial.
  - destruct (m_body m) as [b w'|?|?|?|?|?|]; trivial. unfold copied. rewrite (level_my s s1 L), (L_cf _ _ L), C.
    intros [A B]. split; [exact A|]. destruct (Bool.eqb b rsp); [|exact B].
    destruct B as (B1 & B2 & B3 & B4 & e & E1 & E2 & E3). rewrite (L_bind _ _ L) in E1. rewrite C in E2. rewrite (L_es _ _ L) in E3. eauto 10.
  - now rewrite (level_my s s1 L), (L_bind _ _ L), C.
  - now rewrite (level_my s s1 L), (L_bind _ _ L), C.
Qed.
Lemma level_pull c n s : level s (on_c c (fun k => set_k_pull (bump (k_pull k) n) k) s).
Proof. constructor; trivial; intro x; unfold on_c, upd; cbn [cs set_cs]; destruct (N.eqb_spec x c) as [->|]; trivial. Qed.
Lemma Inv_pull c n s : Inv s -> Inv (on_c c (fun k => set_k_pull (bump (k_pull k) n) k) s).
Proof. intro I. eapply (steps_Inv true); [eauto with st|exact I]. Qed.
Lemma stamp_pull c n m s : stamp (on_c c (fun k => set_k_pull (bump (k_pull k) n) k) s) c m = stamp s c m.
Proof. unfold stamp. rewrite (L_bind _ _ (level_pull c n s)). now rewrite (L_es _ _ (level_pull c n s)). Qed.
Lemma stamp_body s c m : m_body (stamp s c m) = m_body m.
Proof. unfold stamp. destruct (k_bind _); trivial. cbv zeta. now destruct (_ =? 0). Qed.
Lemma stamp_src s c m e : k_bind (cs s c) = Some e -> e_id (d_ep (es s e)) <> 0 -> h_src (m_head (stamp s c m)) = e_id (d_ep (es s e)).
Proof. intros B Z. unfold stamp. rewrite B. cbv zeta. apply N.eqb_neq in Z. now rewrite Z. Qed.
Lemma recv_effect c n m rsp w s : Inv s -> m_body m = BData rsp w ->
  adds (effect c (m_head (stamp s c m)) rsp w s) s (recv_item c (RMsg n m) s).
Proof.
  intros I B. cbn [recv_item]. cbv zeta. rewrite stamp_pull, on_recv_eq. set (s1 := on_c c _ s).
  eapply adds_trans; [apply (adds_same _ s s1); reflexivity|].
  assert (A : adds (effect c (m_head (stamp s c m)) rsp w s1) s1 (fst (dispatch_msg c (stamp s c m) s1))).
  { unfold dispatch_msg. rewrite stamp_body, B. destruct rsp; [apply data_rsp_effect|apply data_req_effect]; now apply Inv_pull. }
  eapply adds_trans.
  - eapply adds_impl; [|exact A]. intros t. apply effect_level, level_pull.
  - eapply adds_impl; [|apply qt_after]. apply ordinary_effect.
Qed.
(** Everything else that can be received. *)
Definition plain (c : N) (m : msg) (s : node) (t : tr) : Prop :=
  match t with
  | TPing e m' | TPong e m' => e = k_bind (cs s c) /\ m' = stamp s c m
  | TCmd (Some c') f a => exists q, m_body m = BCmd false q /\ c' = c /\ f = q_from q /\ a = q_args q /\ keys_ok (cf s) (q_keys q) = true
  | _ => ordinary t
  end.
Lemma ordinary_plain c m s t : ordinary t -> plain c m s t.
Proof. destruct t as [| | |[|]| | | | | | | | | | | | | | | | | | |]; cbn; tauto. Qed.
Lemma quiet_plain c m s s1 s2 : quiet s1 s2 -> adds (plain c m s) s1 s2.
Proof. apply adds_impl, ordinary_plain. Qed.
Lemma msg_eta m : {| m_head := m_head m; m_body := m_body m |} = m. Proof. now destruct m. Qed.
Lemma recv_plain c n m s : is_data m = false -> adds (plain c m s) s (recv_item c (RMsg n m) s).
Proof.
  intros D. cbn [recv_item]. cbv zeta. rewrite stamp_pull, on_recv_eq. set (s1 := on_c c _ s).
  eapply adds_trans; [apply (adds_same _ s s1); reflexivity|]. eapply adds_trans; [|apply quiet_plain, qt_after].
  assert (KB : k_bind (cs s1 c) = k_bind (cs s c)) by apply level_pull.
  assert (DI : is_data (stamp s c m) = false) by (unfold is_data in *; now rewrite stamp_body).
  destruct (is_ping (stamp s c m)) eqn:P; [|destruct (is_cmd (stamp s c m)) eqn:C; [|apply quiet_plain, qt_dispatch; trivial]].
  - unfold is_ping in P. unfold dispatch_msg. destruct (m_body (stamp s c m)) as [?|?|?|?|?|rsp t|] eqn:BD; try discriminate. cbv zeta.
    assert (ME : {| m_head := m_head (stamp s c m); m_body := BPing rsp t |} = stamp s c m) by (rewrite <- BD; apply msg_eta).
    destruct rsp; unfold ping_msg, pong_msg; cbv zeta; rewrite ME, KB.
    + eapply adds_trans; [apply (adds_emit (plain c m s) (TPong (k_bind (cs s c)) (stamp s c m))); now split|].
      unfold emit. cbn [cs set_log]. rewrite KB. destruct (k_bind (cs s c)) as [e|]; [|apply adds_refl]. destruct (_ =? _); [|apply adds_refl]. now apply adds_same.
    + eapply adds_trans; [apply (adds_emit (plain c m s) (TPing (k_bind (cs s c)) (stamp s c m))); now split|].
      unfold emit. cbn [cs set_log]. rewrite KB. destruct (k_bind (cs s c)) as [e|]; [|apply adds_refl]. apply quiet_plain. apply qt_send_on. reflexivity.
  - unfold is_cmd in C. unfold dispatch_msg. destruct (m_body (stamp s c m)) as [?|[] q|?|?|?|?|] eqn:BD; try discriminate. cbv zeta.
    rewrite stamp_body in BD. unfold cmd_req.
    destruct (_ <? _)%Z; [apply quiet_plain; qgo|]. destruct (keys_ok (cf s1) (q_keys q)) eqn:KO; cbn [negb]; [|apply quiet_plain; qgo]. cbv zeta.
    eapply adds_trans; [apply (adds_emit (plain c m s) (TCmd (Some c) (q_from q) (q_args q))); cbn [plain]; exists q; now repeat split|].
    apply quiet_plain. qgo.
Qed.

(** ** C27: no message goes back to the neighbour it came from *)
(** A data message received on a connection of a registered peer is passed on only over
    connections of peers with another id. *)
Theorem C27_never_back_partial s c n m rsp w e c' m' w' k z : reachable s -> m_body m = BData rsp w ->
  k_bind (cs s c) = Some e -> e_id (d_ep (es s e)) <> 0 ->
  gained s (recv_item c (RMsg n m) s) (TSend c' m' k z) -> m_body m' = BData rsp w' ->
  exists e', k_bind (cs s c') = Some e' /\ e_id (d_ep (es s e')) <> e_id (d_ep (es s e)).
Proof.
  intros R B K Z G B'. pose proof (adds_gained _ _ _ _ (recv_effect c n m rsp w s (reachable_Inv s R) B) G) as E.
  cbn [effect] in E. rewrite B', Bool.eqb_reflx in E. destruct E as (_ & _ & _ & _ & _ & e' & E1 & _ & E2).
  rewrite (stamp_src s c m e K Z) in E2. eauto.
Qed.
(** What is passed on is the same message with the own id as direct source and, for
    requests, the own id at the end of the router list; requests that were forwarded
    [ttl] times are not passed on. *)
Theorem C27_forwarded_unchanged s c n m rsp w c' m' w' k z : reachable s -> m_body m = BData rsp w ->
  gained s (recv_item c (RMsg n m) s) (TSend c' m' k z) -> m_body m' = BData rsp w' ->
  k_st (cs s c) = Connected /\ w_to w <> my_id s /\
  m_head m' = {| h_ver := h_ver (m_head m); h_type := h_type (m_head m); h_ret := h_ret (m_head m); h_seq := h_seq (m_head m); h_src := my_id s |} /\
  w' = {| w_from := w_from w; w_to := w_to w; w_router := w_router w ++ (if rsp then [] else [my_id s]);
          w_content := w_content w; w_flags := w_flags w |} /\
  (rsp = false -> N.of_nat (length (w_router w)) < x_ttl (cf s)).
Proof.
  intros R B G B'. pose proof (adds_gained _ _ _ _ (recv_effect c n m rsp w s (reachable_Inv s R) B) G) as E.
  cbn [effect] in E. rewrite B', Bool.eqb_reflx in E. destruct E as (E1 & E2 & (C1 & C2 & C3 & C4 & C5 & C6 & C7 & C8 & C9) & E4 & E5 & _).
  assert (H : h_ver (m_head (stamp s c m)) = h_ver (m_head m) /\ h_type (m_head (stamp s c m)) = h_type (m_head m) /\
    h_ret (m_head (stamp s c m)) = h_ret (m_head m) /\ h_seq (m_head (stamp s c m)) = h_seq (m_head m)).
  { unfold stamp. destruct (k_bind _); [|now repeat split]. cbv zeta. destruct (_ =? 0); now repeat split. }
  destruct H as (H1 & H2 & H3 & H4). rewrite H1 in C1. rewrite H2 in C2. rewrite H3 in C3. rewrite H4 in C4.
  split; [unfold is_connected in E2; destruct (k_st (cs s c)); trivial; discriminate|]. split; [exact E4|].
  split; [|split; [|exact E5]].
  - destruct (m_head m') as [a1 a2 a3 a4 a5]. cbn in *. congruence.
  - destruct w' as [b1 b2 b3 b4 b5]. cbn in *. congruence.
Qed.
Example C27_case : exists s e e', reachable s /\ k_bind (cs s 2) = Some e /\ e_id (d_ep (es s e)) = 65540 /\
  k_bind (cs s 4) = Some e' /\ e_id (d_ep (es s e')) = 65541 /\ exists m' k z,
  gained s (recv_item 2 (RMsg 40 (msg0 1 (BData false (data0 65540 65541 [65540])))) s) (TSend 4 m' k z) /\
  m_body m' = BData false (data0 65540 65541 [65540; 65536]).
Proof.
  observe (fun s => (k_bind (cs s 2), d_ep (es s 2), k_bind (cs s 4), d_ep (es s 3), log s, log (recv_item 2 (RMsg 40 (msg0 1 (BData false (data0 65540 65541 [65540])))) s)))
    (boot 65540 [] ++ [EIo (IAccepted adr2); EIo (IRecv 4 (RMsg 10 (msg0 65541 (BReg false (reg0 65541 [])))))]).
  injection E as E1 E2 E3 E4 E5 E6. exists s, 2, 3. rewrite E1, E2, E3, E4. repeat split; trivial.
  do 3 eexists. split; [gains E5 E6|reflexivity].
Qed.
(** On an in-process or shared memory address the sender is not known: messages count
    as coming from the node itself, and one from the peer 65540 is sent back to it. *)
Theorem C27_never_back_refuted : exists s s' m m' k z, reachable s /\
  m = msg0 65540 (BData false (data0 65539 65540 [65539; 65540])) /\
  step fuel0 (EProc 101 [(4, [RMsg 40 m])]) s = Some s' /\ gained s s' (TSend 3 m' k z) /\
  m_body m' = BData false (data0 65539 65540 [65539; 65540; 65536]) /\
  exists e, k_bind (cs s 3) = Some e /\ e_id (d_ep (es s e)) = 65540.
Proof.
  observe (fun s => (k_bind (cs s 3), d_ep (es s 2), log s, option_map log (step fuel0 (EProc 101 [(4, [RMsg 40 (msg0 65540 (BData false (data0 65539 65540 [65539; 65540])))])]) s)))
    (boot 65540 [] ++ [EListen adr_mem]).
  injection E as E1 E2 E3 E4. destruct (step fuel0 _ s) as [s'|] eqn:S; [|discriminate]. injection E4 as E4.
  exists s, s'. do 4 eexists. split; [exact R|]. split; [reflexivity|]. split; [exact S|]. split; [gains E3 E4|].
  split; [reflexivity|]. exists 2. now rewrite E1, E2.
Qed.

(** ** C29: the direct source cannot be chosen by the sender *)
Theorem C29_source_has_no_influence s c n m e x : k_bind (cs s c) = Some e -> e_id (d_ep (es s e)) <> 0 ->
  recv_item c (RMsg n {| m_head := {| h_ver := h_ver (m_head m); h_type := h_type (m_head m); h_ret := h_ret (m_head m); h_seq := h_seq (m_head m); h_src := x |};
                         m_body := m_body m |}) s = recv_item c (RMsg n m) s.
Proof.
  intros B Z. cbn [recv_item]. cbv zeta. f_equal. rewrite !stamp_pull. unfold stamp. rewrite B. cbv zeta. apply N.eqb_neq in Z. rewrite Z.
  destruct m as [[] ?]. reflexivity.
Qed.
(** Every callback that shows a received message shows the id of the peer that owns the
    connection, and what is passed on carries the own id. *)
Theorem C29_source_shown s c n m e t : reachable s -> k_bind (cs s c) = Some e -> e_id (d_ep (es s e)) <> 0 ->
  gained s (recv_item c (RMsg n m) s) t ->
  match t with
  | TRecv e' (Some c') m' | TAnswer e' (Some c') m' => c' = c /\ e' = Some e /\ h_src (m_head m') = e_id (d_ep (es s e)) /\ m_body m' = m_body m
  | TPing e' m' | TPong e' m' => e' = Some e /\ h_src (m_head m') = e_id (d_ep (es s e)) /\ m_body m' = m_body m
  | TSend _ m' _ _ => match m_body m' with BData _ _ => h_src (m_head m') = my_id s | _ => True end
  | _ => True
  end.
Proof.
  intros R B Z G. destruct (is_data m) eqn:D.
  - unfold is_data in D. destruct (m_body m) as [rsp w|?|?|?|?|?|] eqn:BD; try discriminate.
    pose proof (adds_gained _ _ _ _ (recv_effect c n m rsp w s (reachable_Inv s R) BD) G) as E.
    destruct t as [c' m' k z|e' [c'|] m'|e' [c'|] m'| | | | | | | | | | | | | | | | | | | |]; cbn [effect] in E; trivial; try contradiction.
    + destruct (m_body m'); trivial. apply E.
    + destruct E as (-> & -> & -> & _ & -> & _). rewrite B. cbn [m_head m_body]. now rewrite (stamp_src s c m e B Z).
    + destruct E as (-> & -> & -> & _ & -> & _). rewrite B. cbn [m_head m_body]. now rewrite (stamp_src s c m e B Z).
  - pose proof (adds_gained _ _ _ _ (recv_plain c n m s D) G) as E.
    destruct t as [c' m' k z|e' [c'|] m'|e' [c'|] m'| | | | | | | | | |e' m'|e' m'| | | | | | | | |]; cbn [plain ordinary] in E; trivial; try contradiction.
    + unfold is_data in E. now destruct (m_body m').
    + destruct E as [-> ->]. rewrite B, stamp_body. now rewrite (stamp_src s c m e B Z).
    + destruct E as [-> ->]. rewrite B, stamp_body. now rewrite (stamp_src s c m e B Z).
Qed.
(** The peer 65540 claims to be 1. *)
Example C29_case : exists s, reachable s /\ k_bind (cs s 2) = Some 2 /\ e_id (d_ep (es s 2)) = 65540 /\
  gained s (recv_item 2 (RMsg 40 (msg0 1 (BData false (data0 1 65536 [1])))) s)
    (TRecv (Some 2) (Some 2) (msg0 65540 (BData false (data0 1 65536 [1])))).
Proof.
  observe (fun s => (k_bind (cs s 2), d_ep (es s 2), log s, log (recv_item 2 (RMsg 40 (msg0 1 (BData false (data0 1 65536 [1])))) s))) (boot 65540 []).
  injection E as E1 E2 E3 E4. exists s. rewrite E1, E2. repeat split; trivial. gains E3 E4.
Qed.

(** ** C31: no data before registration *)
(** Whatever arrives on a socket that is not bound to a peer, except data requests of an
    older protocol version, neither reaches the receive callbacks nor makes the node
    send data. *)
Theorem C31_unregistered_data_ignored_partial s c n m t : reachable s -> k_kind (cs s c) = KSock -> k_bind (cs s c) = None ->
  (forall w, m_body m = BData false w -> (ver <= h_ver (m_head m))%Z) ->
  gained s (recv_item c (RMsg n m) s) t ->
  match t with
  | TRecv _ _ _ | TAnswer _ _ _ => False
  | TSend _ m' _ _ => forall rsp w, m_body m' <> BData rsp w
  | _ => True
  end.
Proof.
  intros R K B V G. assert (A : forall t, plain c m s t -> match t with
  | TRecv _ _ _ | TAnswer _ _ _ => False
  | TSend _ m' _ _ => forall rsp w, m_body m' <> BData rsp w
  | _ => True
  end).
  { intros []; cbn; trivial. unfold is_data. destruct (m_body m0); trivial; discriminate. }
  apply A. destruct (is_data m) eqn:D; [|exact (adds_gained _ _ _ _ (recv_plain c n m s D) G)].
  revert G. apply adds_gained. apply quiet_plain. cbn [recv_item]. cbv zeta. rewrite stamp_pull, on_recv_eq. set (s1 := on_c c _ s).
  eapply quiet_trans; [apply (quiet_same s s1); reflexivity|]. eapply quiet_trans; [|apply qt_after].
  assert (NC : is_connected s1 c = false).
  { unfold is_connected. rewrite (L_st _ _ (level_pull c n s)). destruct (I_conn s (reachable_Inv s R) c) as (_ & _ & X & _).
    destruct (k_st (cs s c)); trivial. now elim (X K eq_refl). }
  assert (ST : stamp s c m = m) by (unfold stamp; now rewrite B). rewrite ST.
  unfold is_data in D. unfold dispatch_msg. destruct (m_body m) as [[] w|?|?|?|?|?|]; try discriminate; cbv zeta.
  - unfold data_rsp. rewrite NC. apply quiet_refl.
  - unfold data_req. rewrite NC. destruct (h_ver (m_head m) <? ver)%Z eqn:O; [|apply quiet_refl].
    apply Z.ltb_lt in O. specialize (V w eq_refl). lia.
Qed.
Example C31_case : exists s, reachable s /\ k_kind (cs s 4) = KSock /\ k_bind (cs s 4) = None.
Proof.
  observe (fun s => (k_kind (cs s 4), k_bind (cs s 4))) (boot1 65540 ++ [EIo (IAccepted adr2)]).
  injection E as E1 E2. exists s. now rewrite E1, E2.
Qed.
(** A data request that claims an older protocol version is answered before the
    connection is checked: its content is sent to any node the sender names. *)
Theorem C31_unregistered_data_ignored_refuted : exists s m m' k z, reachable s /\ x_tokens (cf s) <> [] /\
  k_kind (cs s 4) = KSock /\ k_bind (cs s 4) = None /\
  m = {| m_head := {| h_ver := 1; h_type := 0; h_ret := 0; h_seq := 5; h_src := 0 |}; m_body := BData false (data0 65540 1 []) |} /\
  gained s (recv_item 4 (RMsg 40 m) s) (TSend 2 m' k z) /\ k_bind (cs s 2) = Some 2 /\ e_id (d_ep (es s 2)) = 65540 /\
  m_body m' = BData true (data0 1 65540 [65536]).
Proof.
  observe (fun s => (x_tokens (cf s), k_kind (cs s 4), k_bind (cs s 4), k_bind (cs s 2), d_ep (es s 2), log s,
     log (recv_item 4 (RMsg 40 {| m_head := {| h_ver := 1; h_type := 0; h_ret := 0; h_seq := 5; h_src := 0 |}; m_body := BData false (data0 65540 1 []) |}) s)))
    (boot1 65540 ++ [EIo (IAccepted adr2)]).
  injection E as E1 E2 E3 E4 E5 E6 E7. exists s. do 4 eexists. split; [exact R|]. rewrite E1, E2, E3, E4, E5.
  split; [discriminate|]. split; [reflexivity|]. split; [reflexivity|]. split; [reflexivity|]. split; [gains E6 E7|].
  now repeat split.
Qed.
(** A connection the node itself opened to an address a peer announced is used as soon as
    it is established: data that arrive on it are delivered although nobody has
    registered on it. *)
Theorem C31_no_registration_needed_refuted : exists evs s m, run fuel0 evs new_node = Some s /\ x_tokens (cf s) <> [] /\
  (forall i, ~ In (EIo (IRecv 3 i)) evs) /\ k_kind (cs s 3) = KSock /\
  gained s (recv_item 3 (RMsg 40 m) s) (TRecv (Some 2) (Some 3) m).
Proof.
  exists (boot1 65540).
  destruct (run fuel0 (boot1 65540) new_node) as [s|] eqn:E; [|exfalso; revert E; vm_compute; discriminate].
  assert (X : option_map (fun s => (x_tokens (cf s), k_kind (cs s 3), log s, log (recv_item 3 (RMsg 40 (msg0 65540 (BData false (data0 1 65536 [1])))) s))) (run fuel0 (boot1 65540) new_node) <> None)
    by (rewrite E; discriminate).
  destruct (option_map _ (run fuel0 (boot1 65540) new_node)) as [v|] eqn:O; [clear X|now elim X].
  pose proof O as O'. rewrite E in O'. cbn [option_map] in O'. vm_compute in O. injection O as <-. injection O' as E1 E2 E3 E4.
  exists s, (msg0 65540 (BData false (data0 1 65536 [1]))). split; [reflexivity|]. rewrite E1, E2. split; [discriminate|].
  split; [intros i H; cbn [boot1 In] in H; intuition discriminate|]. split; [reflexivity|].
  gains E3 E4.
Qed.

Print Assumptions C25_next_hop.
Print Assumptions C25_own_subnets_never_up.
Print Assumptions C27_never_back_partial.
Print Assumptions C27_forwarded_unchanged.
Print Assumptions C27_never_back_refuted.
Print Assumptions C29_source_has_no_influence.
Print Assumptions C29_source_shown.
Print Assumptions C31_unregistered_data_ignored_partial.
Print Assumptions C31_unregistered_data_ignored_refuted.
Print Assumptions C31_no_registration_needed_refuted.
