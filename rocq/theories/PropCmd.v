(** Custom commands: C56. *)
From Verif Require Import Base Subnet Route RouteProof Address NodeTypes NodeConn NodeCore NodeMsg Node
  NodeFrame NodeReset NodeInv NodeKeep NodeSteps NodeReach NodeSpec NodeLog NodeNotice NodeRoute NodeTrace NodeHandle NodeAuth PropNodeMsg PropNodeAuth
  NetSpec PropNet TreeSpec PropTree NodeExample.
Local Open Scope N_scope.
Ltac Zify.zify_post_hook ::= idtac.

(** ** Specification *)
(** The commands run for a peer, and the messages sent, oldest first. *)
Definition ran (l : list tr) : list (N * N * list bytes) :=
  flat_map (fun t => match t with TCmd (Some c) f a => [(c, f, a)] | _ => [] end) (rev l).
Definition out (l : list tr) : list (N * msg) :=
  flat_map (fun t => match t with TSend c m _ _ => [(c, m)] | _ => [] end) (rev l).
(** A command a node agrees to run: the protocol version is not older, and one of the
    keys is made from one of its tokens.  A node without tokens wants no key, or an empty
    one. *)
Definition key_fine (x : cfg) (ks : list key) : Prop :=
  match x_tokens x with
  | [] => ks = [] \/ exists k, In k ks /\ y_h1 k = 0 /\ y_h2 k = 0
  | ts => exists k, In k ks /\ valid_key ts (x_mac x) k
  end.
Definition welcome (s : node) (h : head) (q : cmd) : Prop := (ver <= h_ver h)%Z /\ key_fine (cf s) (q_keys q).
(** The answer to the command [q] received with header [h]. *)
Definition answer_to (s : node) (h : head) (q : cmd) (m : msg) : Prop :=
  h_seq (m_head m) = h_seq h /\ h_src (m_head m) = my_id s /\
  exists q', m_body m = BCmd true q' /\ q_from q' = my_id s /\
    (welcome s h q -> h_ret (m_head m) = 0%Z /\ q_args q' = x_reply (cf s) (q_args q)) /\
    (~ welcome s h q -> h_ret (m_head m) = E_VERSION \/ h_ret (m_head m) = E_ACCESS_DENY).
Definition as_commanded (s : node) (args : list bytes) (q : N) (m : msg) : Prop :=
  h_src (m_head m) = my_id s /\ h_ver (m_head m) = ver /\ h_seq (m_head m) <> 0 /\ (q <> 0 -> h_seq (m_head m) = q) /\
  exists b, m_body m = BCmd false b /\ q_from b = my_id s /\ q_args b = args.

(** ** Entries that neither run a command nor send a message *)
Definition hushed (t : tr) : Prop := match t with TSend _ _ _ _ | TCmd (Some _) _ _ => False | _ => True end.
Lemma hushed_soft s s' : soft s s' -> adds hushed s s'.
Proof.
  intros [(l & E & F) _]. exists l. split; [exact E|]. eapply Forall_impl; [|exact F]. intros []; cbn; trivial; discriminate.
Qed.
Lemma hushed_rmep i ex s : adds hushed s (fst (remove_endpoint i ex s)).
Proof.
  unfold remove_endpoint. destruct (is_parent s i).
  - destruct (parent s) as [p|]; [|apply adds_refl]. destruct (match ex with Some _ => _ | None => _ end); [apply adds_refl|]. cbv zeta. cbn [fst].
    set (s1 := set_popr _ _). apply (adds_trans _ s s1); [now apply adds_same|].
    apply (adds_trans _ s1 (emit (TRemoved (e_ref p)) s1)); [now apply adds_emit|].
    destruct (fl_act _); [apply adds_refl|]. unfold fatal_shutdown, shutdown. destruct (fl_shut _); [apply adds_refl|]. cbv zeta.
    destruct (fl_act _); [apply (adds_trans _ _ (set_fl_shut true (emit (TRemoved (e_ref p)) s1))); [now apply adds_same|now apply adds_emit]|now apply adds_same].
  - destruct (_ =? _); [apply adds_refl|]. destruct (remove_child _ _ _) as [[] t]; [|apply adds_refl].
    destruct (child_at _ _) as [e|]; [|apply adds_refl]. cbn [fst]. apply (adds_trans _ s (set_routes t s)); [now apply adds_same|now apply adds_emit].
Qed.
Lemma hushed_fault c s : adds hushed s (fault_of c s).
Proof.
  unfold fault_of. cbv zeta.
  assert (D : forall e s, adds hushed s (ep_drop e s)) by (intros e s0; unfold ep_drop; destruct (_ : bool); [apply adds_refl|apply hushed_soft, soft_ep_reset]).
  assert (F : forall s, adds hushed s (conn_fault c s)).
  { intro s0. unfold conn_fault. cbv zeta. destruct (_ <? _); [|now apply adds_same].
    set (s1 := on_c c _ s0). apply (adds_trans _ s0 s1); [now apply adds_same|apply hushed_soft, soft_conn_reset]. }
  destruct (k_bind (cs s c)) as [e|]; [|apply F]. unfold ep_fault. cbv zeta. set (s1 := emit _ (on_e e _ s)).
  apply (adds_trans _ s s1); [exists [TFault e (e_id (d_ep (es s e))) (x_tol (cf s))]; split; [reflexivity|repeat constructor]|]. clearbody s1. destruct (_ <? _).
  - pose proof (hushed_rmep (e_id (d_ep (es s1 e))) None s1) as R. destruct (remove_endpoint _ _ s1) as [s2 z]. cbn [fst] in *.
    eapply adds_trans; [exact R|]. eapply adds_trans; [apply D|apply F].
  - apply F.
Qed.
Lemma hushed_after c p : adds hushed (fst p) (after_recv c p).
Proof.
  destruct p as [s r]. unfold after_recv. cbn [fst]. destruct (_ <? _)%Z; [apply hushed_fault|].
  cbv zeta. destruct (k_bind _) as [e|]; [|now apply adds_same]. exists [TGood e]. split; [reflexivity|repeat constructor].
Qed.
Lemma hushed_none l : Forall hushed l -> ran l = [] /\ out l = [].
Proof.
  unfold ran, out. intro F. apply Forall_rev in F. induction F as [|t l0 H F [IH1 IH2]]; [now split|]. cbn [flat_map]. rewrite IH1, IH2.
  destruct t as [| | |[|]| | | | | | | | | | | | | | | | | | |]; now try contradiction.
Qed.
Lemma ran_app a b : ran (a ++ b) = ran b ++ ran a. Proof. unfold ran. now rewrite rev_app_distr, flat_map_app. Qed.
Lemma out_app a b : out (a ++ b) = out b ++ out a. Proof. unfold out. now rewrite rev_app_distr, flat_map_app. Qed.

Lemma salted_keys x s : exists v ks, gen_keys x s = (set_salts v s, ks).
Proof. destruct (gen_keys_eq x s) as [v E]. destruct (gen_keys x s) as [s1 ks]. cbn [fst] in E. subst. eauto. Qed.

(** ** What a node does with a command of a peer *)
(** The node the command reaches runs it, exactly once, if it agrees to; the only message
    it sends is one answer, on the connection the command came from.  In particular it
    never passes the command on. *)
Lemma key_fine_ok x ks : key_fine x ks <-> keys_ok x ks = true.
Proof.
  unfold key_fine. destruct (x_tokens x) as [|t ts] eqn:T.
  - unfold keys_ok, check_hash. rewrite T. destruct ks as [|k ks]; [split; auto|]. rewrite existsb_exists. split.
    + intros [X|(y & Y & A & B)]; [discriminate|]. exists y. split; [exact Y|]. now rewrite A, B.
    + intros (y & Y & A). right. exists y. split; [exact Y|]. apply andb_prop in A. rewrite !N.eqb_eq in A. exact A.
  - rewrite (keys_ok_valid x ks) by (rewrite T; discriminate). now rewrite T.
Qed.
Lemma welcome_ok s h q : (h_ver h <? ver)%Z = false -> (welcome s h q <-> keys_ok (cf s) (q_keys q) = true).
Proof. intro V. apply Z.ltb_ge in V. unfold welcome. rewrite key_fine_ok. tauto. Qed.
Theorem C56_run_where_it_arrives s c n m q l : m_body m = BCmd false q -> log (recv_item c (RMsg n m) s) = l ++ log s ->
  (welcome s (m_head m) q -> ran l = [(c, q_from q, q_args q)]) /\ (~ welcome s (m_head m) q -> ran l = []) /\
  (out l = [] \/ exists a, out l = [(c, a)] /\ answer_to s (m_head m) q a).
Proof.
  intros B L. revert L. cbn [recv_item]. cbv zeta. rewrite stamp_pull, on_recv_eq. set (s1 := on_c c _ s). intro L.
  pose proof (stamp_body s c m) as SB.
  assert (HV : h_ver (m_head (stamp s c m)) = h_ver (m_head m) /\ h_seq (m_head (stamp s c m)) = h_seq (m_head m)).
  { unfold stamp. destruct (k_bind _); [|now split]. cbv zeta. destruct (_ =? 0); now split. }
  destruct HV as [HV HQ]. set (h := m_head (stamp s c m)) in *.
  assert (W1 : welcome s (m_head m) q <-> welcome s1 h q) by (unfold welcome; rewrite HV; reflexivity).
  destruct (hushed_after c (dispatch_msg c (stamp s c m) s1)) as (l2 & E2 & F2). destruct (hushed_none l2 F2) as [R2 O2].
  assert (X : exists l1, log (fst (dispatch_msg c (stamp s c m) s1)) = l1 ++ log s /\
    (welcome s1 h q -> ran l1 = [(c, q_from q, q_args q)]) /\ (~ welcome s1 h q -> ran l1 = []) /\
    (out l1 = [] \/ exists a, out l1 = [(c, a)] /\ answer_to s1 h q a)).
  { unfold dispatch_msg. rewrite SB, B. cbv zeta. fold h. change (log s) with (log s1).
    assert (AN : forall data ty code s2, my_id s2 = my_id s1 ->
      (welcome s1 h q -> code = 0%Z /\ data = x_reply (cf s1) (q_args q)) -> (~ welcome s1 h q -> code = E_VERSION \/ code = E_ACCESS_DENY) ->
      exists l1, log (fst (send_cmd_rsp (Some c) data ty code (h_seq h) (q_from q) s2)) = l1 ++ log s2 /\ ran l1 = [] /\
        (out l1 = [] \/ exists a, out l1 = [(c, a)] /\ answer_to s1 h q a)).
    { intros data ty code s2 ID K1 K2. unfold send_cmd_rsp. destruct (salted_keys (x_tokens (cf s2)) s2) as (v & ks & ->). cbv zeta.
      set (a := {| m_head := _; m_body := _ |}).
      assert (AT : answer_to s1 h q a).
      { unfold answer_to, a. cbn [m_head m_body h_seq h_src h_ret]. change (my_id (set_salts v s2)) with (my_id s2). rewrite ID. split; [reflexivity|]. split; [reflexivity|].
        eexists. split; [reflexivity|]. cbn [q_from q_args]. auto. }
      destruct (send_on_cases c a (set_salts v s2)) as [[_ E]|(k & E)].
      - exists []. split; [exact E|]. split; [reflexivity|now left].
      - exists [TSend c a k (snd (send_on c a (set_salts v s2)))]. split; [exact E|]. split; [reflexivity|]. right. exists a. now split. }
    unfold cmd_req. destruct (h_ver h <? ver)%Z eqn:V.
    - assert (NW : ~ welcome s1 h q) by (intros [X _]; apply Z.ltb_lt in V; lia).
      destruct (AN deny_version (h_type h) E_VERSION s1 eq_refl) as (l1 & E & R & O); [tauto|auto|]. exists l1. tauto.
    - pose proof (welcome_ok s1 h q V) as WK. destruct (keys_ok (cf s1) (q_keys q)) eqn:KO; cbn [negb].
      + assert (W : welcome s1 h q) by now apply WK. set (s2 := emit _ s1). cbv zeta.
        destruct (_ || _).
        * destruct (AN (x_reply (cf s2) (q_args q)) (h_type h) 0%Z s2 eq_refl) as (l1 & E & R & O); [auto|tauto|].
          exists (l1 ++ [TCmd (Some c) (q_from q) (q_args q)]). rewrite ran_app, out_app, R. change (out [TCmd (Some c) (q_from q) (q_args q)]) with (@nil (N * msg)). cbn [app].
          split; [rewrite E; unfold s2; cbn [emit log set_log]; now rewrite <- app_assoc|]. split; [reflexivity|]. split; [tauto|exact O].
        * exists [TCmd (Some c) (q_from q) (q_args q)]. split; [reflexivity|]. split; [reflexivity|]. split; [tauto|now left].
      + assert (NW : ~ welcome s1 h q) by (intro X; apply WK in X; discriminate).
        destruct (AN deny_token (h_type h) E_ACCESS_DENY s1 eq_refl) as (l1 & E & R & O); [tauto|auto|]. exists l1. tauto. }
  destruct X as (l1 & E1 & X1 & X2 & X3). rewrite E2, E1, app_assoc in L. apply app_inv_tail in L. subst l. rewrite ran_app, out_app, R2, O2, !app_nil_r.
  split; [tauto|]. split; [tauto|]. destruct X3 as [X3|(a & X3 & X4)]; [now left|right]. exists a. split; [exact X3|].
  unfold answer_to in *. rewrite HQ in X4. destruct X4 as (Y1 & Y2 & q' & Y3 & Y4 & Y5 & Y6). split; [exact Y1|]. split; [exact Y2|].
  exists q'. split; [exact Y3|]. split; [exact Y4|]. split; [intro Z; apply Y5; tauto|intro Z; apply Y6; tauto].
Qed.

(** ** Where a command goes *)
(** To the next hop towards the target, as a data message does. *)
Lemma remote_salts v s id : remote true (set_salts v s) id = remote true s id.
Proof.
  assert (A : forall c l, ins_conn (set_salts v s) c l = ins_conn s c l) by (intros c l; induction l as [|x l IH]; [reflexivity|cbn [ins_conn]; now rewrite IH]).
  assert (B : forall l, sort_conns (set_salts v s) l = sort_conns s l)
    by (intro l; unfold sort_conns; induction l as [|x l IH]; [reflexivity|cbn [fold_right]; now rewrite IH, A]).
  assert (P : forall e, pick true (set_salts v s) e = pick true s e) by (intro e; unfold pick, data_conn; cbn [es set_salts]; rewrite B; reflexivity).
  unfold remote. change (self (set_salts v s)) with (self s). destruct (self s) as [se|]; [|reflexivity]. change (nst (set_salts v s)) with (nst s).
  change (my_id (set_salts v s)) with (my_id s). change (next_hop (set_salts v s) id) with (next_hop s id). change (is_child (set_salts v s) id) with (is_child s id).
  destruct (next_hop s id) as [e|]; [now rewrite P|reflexivity].
Qed.
Theorem C56_next_hop s to args q s' r : reachable s -> settled s -> nst s <> NCreated -> self s <> None ->
  to <> 0 -> to <> my_id s -> send_custom to args q s = (s', r) ->
  exists hop, next s to hop /\
    match hop with
    | None => (r < 0)%Z /\ log s' = log s
    | Some x => (r < 0)%Z /\ log s' = log s \/
        exists c m n, log s' = TSend c m n r :: log s /\ as_commanded s args q m /\
          k_bind (cs s c) = Some (e_ref x) /\ k_st (cs s c) = Connected
    end.
Proof.
  intros R S N SE I0 M E. destruct (remote_next s to R S N SE I0 M) as (hop & NX & H). exists hop. split; [exact NX|].
  unfold send_custom in E. destruct (x_msg (cf s) <? cmd_length (cf s) args) eqn:LE.
  { assert (E' : (s, E_INVALID_SIZE) = (s', r)) by (destruct (nst s); [congruence|exact E..]). injection E' as <- <-.
    destruct hop; [left|]; split; reflexivity. }
  assert (E' : exists s1 v ks, v <> 0 /\ (q <> 0 -> v = q) /\
    remote true s1 to = remote true s to /\ log s1 = log s /\ my_id s1 = my_id s /\ nst s1 = nst s /\ cs s1 = cs s /\
    send_to true to {| m_head := {| h_ver := ver; h_type := 0%Z; h_ret := 0%Z; h_seq := v; h_src := my_id s |};
             m_body := BCmd false {| q_from := my_id s; q_keys := ks; q_args := args |} |} s1 = (s', r)).
  { destruct (N.eqb_spec q 0) as [->|Q].
    - pose proof (alloc_pos s) as AP. unfold alloc_seq in *. cbv zeta in *. cbn [snd] in AP. set (v := if _ =? 0 then 1 else _) in *.
      destruct (salted_keys (x_tokens (cf s)) (set_seqn v s)) as (w & ks & GK). exists (set_salts w (set_seqn v s)), v, ks.
      split; [exact AP|]. split; [congruence|]. split; [now rewrite remote_salts, remote_seqn|]. do 4 (split; [reflexivity|]).
      change (cf (set_seqn v s)) with (cf s) in E. rewrite GK in E. destruct (nst s); [congruence|exact E..].
    - destruct (salted_keys (x_tokens (cf s)) s) as (w & ks & GK). exists (set_salts w s), q, ks.
      split; [exact Q|]. split; [reflexivity|]. split; [now rewrite remote_salts|]. do 4 (split; [reflexivity|]).
      rewrite GK in E. destruct (nst s); [congruence|exact E..]. }
  destruct E' as (s1 & v & ks & V0 & VQ & RM & LG & ID & NS & CS & E'). clear E.
  set (m := {| m_head := _; m_body := _ |}) in E'. unfold send_to in E'. apply N.eqb_neq in M. rewrite ID, M in E'. cbn [andb] in E'.
  assert (PO : post true to m s1 = match remote true s to with
     | (r, _, oc) => if (r <? 0)%Z then (s1, r) else match oc with None => (s1, E_NO_CONNECTION) | Some c => send_on c m s1 end end).
  { unfold post. rewrite NS, ID, M, RM. assert (NU : number m s1 = (s1, m)) by (unfold number; subst m; cbn [m_head h_seq]; apply N.eqb_neq in V0; now rewrite V0).
    rewrite NU. destruct (nst s); [congruence|reflexivity..]. }
  rewrite PO in E'. clear PO.
  destruct hop as [x|].
  - destruct H as [H|(c & H & B & ST)]; rewrite H in E'; cbn in E'.
    + injection E' as <- <-. left. split; [reflexivity|exact LG].
    + destruct (send_on_cases c m s1) as [[Z LL]|(n & LL)]; rewrite LG in LL.
      * destruct (send_on c m s1) as [s2 z]. cbn [fst snd] in *. injection E' as <- <-. now left.
      * right. exists c, m, n. destruct (send_on c m s1) as [s2 z]. cbn [fst snd] in *. injection E' as <- <-.
        split; [exact LL|]. split; [|now split]. unfold as_commanded, m. cbn [m_body m_head h_ver h_src h_seq]. repeat (split; [auto; fail|]). eexists. now repeat split.
  - destruct H as (z & H & C). rewrite H in E'. destruct C as [-> | ->]; cbn in E'; injection E' as <- <-; split; auto; reflexivity.
Qed.

(** The parent of 65540 and 65541 gets a command of 65540, runs it and answers. *)
Example C56_case : exists s, reachable s /\ settled s /\ nst s <> NCreated /\ self s <> None /\ next s 65541 (Some (d_ep (es s 3))) /\
  snd (send_custom 65541 [[7]] 0 s) = 0%Z /\
  exists l a, log (recv_item 2 (RMsg 30 (msg0 65540 (BCmd false {| q_from := 65540; q_keys := []; q_args := [[7]] |}))) s) = l ++ log s /\ out l = [(2, a)].
Proof.
  observe (fun s => (nst s, self s, parent s, routes s, log s, d_ep (es s 2), d_ep (es s 3), snd (send_custom 65541 [[7]] 0 s),
    log (recv_item 2 (RMsg 30 (msg0 65540 (BCmd false {| q_from := 65540; q_keys := []; q_args := [[7]] |}))) s))) on_top.
  injection E as E1 E2 E3 E4 E5 E6 E7 E8 E9. exists s. split; [exact R|]. split.
  { intros e H. rewrite E5 in H. cbn [In] in H. assert (e = 2 \/ e = 3) as [-> | ->] by (intuition congruence); [rewrite E6|rewrite E7].
    all: unfold good_ep; cbn [e_subs e_id]; split; [repeat constructor; unfold good; cbn; lia|]; split; [repeat constructor|]; eexists; (split; [now left|]); cbn; lia. }
  rewrite E1, E2, E7, E8. do 2 (split; [discriminate|]). split; [|split; [reflexivity|]].
  - eapply To_peer; [rewrite E3; discriminate|rewrite E4; right; left; reflexivity|]. unfold covers. cbn. eexists. split; [now left|]. cbn. lia.
  - match type of E9 with _ = ?b => match type of E5 with _ = ?c => let n := eval vm_compute in (length b - length c)%nat in exists (firstn n b) end end.
    eexists. split; [etransitivity; [exact E9|rewrite E5; reflexivity]|reflexivity].
Qed.

(** ** A command does not get to its target *)
(** [send_custom_cmd] takes the id of a target, but the message does not contain it, and
    a node that is not the target runs the command itself.  65540 sends a command to its
    sibling 65541; it reaches the parent 65536, which knows 65541 but runs the command
    itself and sends 65541 nothing. *)
Theorem C56_command_target_refuted : exists kid top m c n l,
  reachable kid /\ reachable top /\ my_id kid = 65540 /\ my_id top = 65536 /\
  (exists s', send_custom 65541 [[7]] 0 kid = (s', 0%Z) /\ log s' = TSend c m n 0 :: log kid) /\
  (exists e x, k_bind (cs kid c) = Some e /\ e_id (d_ep (es kid e)) = 65536 /\
     In (65541, x) (map (fun p => (e_id (snd p), e_ref (snd p))) (routes top)) /\ snd (send_custom 65541 [[7]] 0 top) = 0%Z) /\
  k_bind (cs top 2) = Some 2 /\ e_id (d_ep (es top 2)) = 65540 /\
  log (recv_item 2 (RMsg n m) top) = l ++ log top /\ ran l = [(2, 65540, [[7]])] /\
  forall p, In p (out l) -> fst p = 2.
Proof.
  observe (fun s => (my_id s, log s, let (s', z) := send_custom 65541 [[7]] 0 s in (z, log s'),
    (k_bind (cs s 1), k_bind (cs s 2)), d_ep (es s 2))) (below 65540).
  injection E as E1 E2 E3 E5 E6 E7. destruct (send_custom 65541 [[7]] 0 s) as [s' z] eqn:SC. injection E3 as E3 E4.
  match type of E4 with _ = TSend ?c ?m ?n _ :: _ => pose (mm := m); pose (cc := c); pose (nn := n) end.
  pose (obs := fun s => (my_id s, log s, routes s, snd (send_custom 65541 [[7]] 0 s), k_bind (cs s 2), d_ep (es s 2), log (recv_item 2 (RMsg nn mm) s))).
  let v := eval vm_compute in (option_map obs (run fuel0 on_top new_node)) in
  match v with Some ?x => destruct (witness obs on_top x) as (t & RT & F); [vm_compute; reflexivity|] end.
  unfold obs in F. injection F as F1 F2 F3 F4 F5 F6 F7.
  match type of F7 with _ = ?b => match type of F2 with _ = ?a => let n := eval vm_compute in (length b - length a)%nat in
    exists s, t, mm, cc, nn, (firstn n b) end end.
  split; [exact R|]. split; [exact RT|]. split; [exact E1|]. split; [exact F1|].
  split; [exists s'; split; [now rewrite SC, E3|now rewrite E4, E2]|].
  split.
  { eexists 2, 3. split; [exact E6|]. rewrite E7. split; [reflexivity|]. rewrite F3. split; [right; now left|exact F4]. }
  split; [exact F5|]. rewrite F6. split; [reflexivity|]. split; [etransitivity; [exact F7|rewrite F2; reflexivity]|]. split; [reflexivity|].
  intros p H. vm_compute in H. destruct H as [<-|[]]. reflexivity.
Qed.

Print Assumptions C56_run_where_it_arrives.
Print Assumptions C56_next_hop.
Print Assumptions C56_command_target_refuted.
