(** How many deliveries, copies and responses one received data request causes. *)
From Verif Require Import Base Subnet Route Address NodeTypes NodeConn NodeCore NodeMsg Node
  NodeFrame NodeReset NodeInv NodeKeep NodeSteps NodeReach NodeSpec NodeLog NodeTrace NodeHandle PropNodeMsg.
Local Open Scope N_scope.
Ltac Zify.zify_post_hook ::= idtac.

(** A request handed to the transport, which took it. *)
Definition is_copy (t : tr) : bool :=
  match t with TSend _ m _ z => match m_body m with BData false _ => (0 <=? z)%Z | _ => false end | _ => false end.
(** A response handed to the transport. *)
Definition is_response (t : tr) : bool :=
  match t with TSend _ m _ _ => match m_body m with BData true _ => true | _ => false end | _ => false end.
(** A message handed to the receive callback. *)
Definition is_delivery (t : tr) : bool := match t with TRecv _ (Some _) _ => true | _ => false end.
Definition ret_of (t : tr) : Z := match t with TSend _ m _ _ => h_ret (m_head m) | _ => 0%Z end.

(** Entries of one step without data messages. *)
Lemma inner_none t : inner t -> is_copy t = false /\ is_response t = false /\ is_delivery t = false.
Proof.
  destruct t as [c m n z|e [c|] m| | | | | | | | | | | | | | | | | | | | |]; cbn; try (intros; now repeat split).
  - unfold is_data. intro D. destruct (m_body m); now repeat split.
Qed.
Lemma none_filter (p : tr -> bool) l : Forall (fun t => p t = false) l -> filter p l = [].
Proof. induction 1 as [|t l H _ IH]; [reflexivity|]. cbn [filter]. now rewrite H. Qed.

(** What was appended: the number of copies, of deliveries, and the responses. *)
Definition tally (s s' : node) (copies deliveries : nat) (codes : list Z) : Prop :=
  exists l, log s' = l ++ log s /\ length (filter is_copy l) = copies /\ length (filter is_delivery l) = deliveries /\
    map ret_of (filter is_response l) = codes.
Lemma tally_zero s s' : log s' = log s -> tally s s' 0 0 [].
Proof. intro L. exists []. now rewrite L. Qed.
Lemma tally_trans s1 s2 s3 a1 b1 c1 a2 b2 c2 : tally s1 s2 a1 b1 c1 -> tally s2 s3 a2 b2 c2 -> tally s1 s3 (a2 + a1) (b2 + b1) (c2 ++ c1).
Proof.
  intros (l & L & A & B & C) (l' & L' & A' & B' & C'). exists (l' ++ l). rewrite L', L, app_assoc. split; [reflexivity|].
  rewrite !filter_app, !app_length, map_app. now subst.
Qed.
Lemma tally_inner s s' : adds inner s s' -> tally s s' 0 0 [].
Proof.
  intros (l & L & F). exists l. split; [exact L|].
  rewrite !none_filter; [now repeat split|..]; eapply Forall_impl; try exact F; intros t T; now destruct (inner_none t T) as (A & B & C).
Qed.
Lemma tally_one t s s' : log s' = t :: log s -> tally s s' (if is_copy t then 1 else 0) (if is_delivery t then 1 else 0) (if is_response t then [ret_of t] else []).
Proof. intro L. exists [t]. split; [exact L|]. cbn [filter]. destruct (is_copy t), (is_delivery t), (is_response t); now repeat split. Qed.

Lemma send_on_log c m s : (snd (send_on c m s) < 0)%Z /\ log (fst (send_on c m s)) = log s \/
  exists n, log (fst (send_on c m s)) = TSend c m n (snd (send_on c m s)) :: log s.
Proof.
  unfold send_on. destruct (_ <? _); [left; split; reflexivity|]. unfold push. cbv zeta.
  destruct (k_st _); try (left; split; reflexivity).
  all: destruct (k_kind _); try (left; split; reflexivity).
  all: unfold take_orc; cbn [orc on_c]; destruct (orc _) as [|z o]; right; cbn [snd fst]; eexists; destruct (_ <? 0)%Z; reflexivity.
Qed.
(** A response is handed over at most once; [code] is what it says. *)
Lemma post_response d i m w s : Inv s -> m_body m = BData true w ->
  tally s (fst (post d i m s)) 0 0 [] \/ tally s (fst (post d i m s)) 0 0 [h_ret (m_head m)].
Proof.
  intros I B. destruct (i =? my_id s) eqn:E; [left; now apply tally_zero, in_post|]. unfold post. rewrite E.
  destruct (nst s); [left; now apply tally_zero|..].
  all: destruct (remote d s i) as [[r oe] oc]; destruct (r <? 0)%Z; [left; now apply tally_zero|]; destruct oc as [c|]; [|left; now apply tally_zero].
  all: assert (G : forall m1 s1, log s1 = log s -> m_body m1 = BData true w -> h_ret (m_head m1) = h_ret (m_head m) ->
     tally s (fst (send_on c m1 s1)) 0 0 [] \/ tally s (fst (send_on c m1 s1)) 0 0 [h_ret (m_head m)])
    by (intros m1 s1 L B1 H1; destruct (send_on_log c m1 s1) as [[_ X]|[n X]]; rewrite L in X;
        [left; now apply tally_zero|right; pose proof (tally_one _ _ _ X) as T; cbn [is_copy is_delivery is_response ret_of] in T; rewrite B1, H1 in T; exact T]).
  all: unfold number, alloc_seq; destruct (h_seq (m_head m) =? 0); [apply G; trivial|now apply G].
Qed.
Lemma rsp_tally h w code s : Inv s -> tally s (fst (transfer_rsp h w code s)) 0 0 [] \/ tally s (fst (transfer_rsp h w code s)) 0 0 [code].
Proof.
  intro I. unfold transfer_rsp, send_to. cbv zeta. set (m := {| m_head := _; m_body := _ |}).
  pose proof (post_response false (w_from w) m _ s I eq_refl) as P.
  pose proof (steps_Inv _ _ _ (st_post true false (w_from w) m s I) I) as I1.
  destruct (post false (w_from w) m s) as [s1 r]. cbn [fst] in P, I1.
  change (h_ret (m_head m)) with code in P. destruct (_ && _); [|exact P]. cbn [fst].
  pose proof (tally_inner _ _ (adds_dispatch_self s1 I1)) as D.
  destruct P as [P|P]; [left|right]; exact (tally_trans _ _ _ _ _ _ _ _ _ P D).
Qed.
Lemma remote_neg data s id r oe : remote data s id = (r, oe, None) -> (r < 0)%Z.
Proof.
  unfold remote. destruct (self s); [|intros [= <- _]; reflexivity]. destruct (nst s); [intros [= <- _]; reflexivity|..].
  all: destruct (_ =? _); [intros [= <- _]; reflexivity|]; destruct (next_hop s id).
  all: try (destruct (pick data s _); [discriminate|intros [= <- _]; reflexivity]).
  all: destruct (is_child s id); [intros [= <- _]; reflexivity|]; destruct (find_route _ _); intros [= <- _]; reflexivity.
Qed.
Lemma remote_ep data s id r c : remote data s id <> (r, None, Some c).
Proof. intro R. destruct (remote_any _ _ _ _ _ _ R) as [e E]. discriminate. Qed.
(** A copy is handed over exactly when the result is not negative. *)
Lemma forward_tally h w f t s : tally s (fst (fst (fst (forward false h w f t s)))) (if (0 <=? snd (fst (fst (forward false h w f t s))))%Z then 1 else 0) 0 [].
Proof.
  unfold forward. destruct (t =? 0); [now apply tally_zero|]. destruct (my_id s =? t); [now apply tally_zero|].
  destruct (remote true s t) as [[r [e|]] [c|]] eqn:R.
  - destruct (_ && _); [now apply tally_zero|]. cbv zeta. set (m := {| m_head := _; m_body := _ |}).
    pose proof (send_on_log c m s) as S. destruct (send_on c m s) as [s1 z]. cbn [fst snd] in *. destruct S as [[Z L]|[n L]].
    + apply Z.leb_gt in Z. rewrite Z. now apply tally_zero.
    + exact (tally_one _ _ _ L).
  - apply remote_neg in R. cbn [fst snd]. apply Z.leb_gt in R. rewrite R. now apply tally_zero.
  - now apply remote_ep in R.
  - apply remote_neg in R. cbn [fst snd]. apply Z.leb_gt in R. rewrite R. now apply tally_zero.
Qed.

(** Everything one received request can lead to. *)
Inductive outcome (c : N) (h : head) (w : fwd) (s s' : node) : Prop :=
| O_nothing : tally s s' 0 0 [] -> (h_ver h < ver)%Z \/ is_connected s c = false \/ w_to w <> my_id s -> outcome c h w s s'
| O_failed code : (code < 0)%Z -> tally s s' 0 0 [code] -> (h_ver h < ver)%Z \/ w_to w <> my_id s -> outcome c h w s s'
| O_delivered codes : w_to w = my_id s -> tally s s' 0 1 codes -> codes = [] \/ (codes = [0%Z] /\ N.testbit (w_flags w) 0 = true) -> outcome c h w s s'
| O_copied codes : w_to w <> my_id s -> tally s s' 1 0 codes ->
    codes = [] \/ (exists z, codes = [z] /\ (0 <= z)%Z /\ N.testbit (w_flags w) 0 = true /\ is_child s (w_to w) = false) -> outcome c h w s s'.
Lemma level_is_child s s' i : level s s' -> is_child s' i = is_child s i.
Proof. intro L. unfold is_child, my_subs. rewrite (level_my _ _ L), (L_self _ _ L). reflexivity. Qed.
Lemma data_req_outcome c h w s : Inv s -> outcome c h w s (fst (data_req c h w s)).
Proof.
  intro I. unfold data_req. destruct (Z.ltb_spec (h_ver h) ver) as [V|V].
  { destruct (rsp_tally h w E_VERSION s I) as [T|T]; [apply O_nothing; auto|apply (O_failed _ _ _ _ _ E_VERSION); auto; reflexivity]. }
  destruct (is_connected s c) eqn:CN; [cbn [negb]|apply O_nothing; [now apply tally_zero|auto]].
  destruct (N.eqb_spec (w_to w) (my_id s)) as [TM|TM].
  - cbv zeta. set (s1 := emit _ s).
    assert (I1 : Inv s1) by (eapply (steps_Inv true); [apply st_emit; exact Logic.I|exact I]).
    assert (T1 : tally s s1 0 1 []) by (exact (tally_one _ s s1 eq_refl)).
    destruct (N.testbit _ _) eqn:FL; [|apply (O_delivered _ _ _ _ _ []); auto].
    destruct (rsp_tally h w E_OK s1 I1) as [T|T].
    + apply (O_delivered _ _ _ _ _ []); auto. exact (tally_trans _ _ _ _ _ _ _ _ _ T1 T).
    + apply (O_delivered _ _ _ _ _ [0%Z]); auto. exact (tally_trans _ _ _ _ _ _ _ _ _ T1 T).
  - destruct (x_ttl (cf s) <=? N.of_nat (length (w_router w))).
    { destruct (rsp_tally h w E_TTL s I) as [T|T]; [apply O_nothing; auto|apply (O_failed _ _ _ _ _ E_TTL); auto; reflexivity]. }
    cbv zeta. set (w1 := add_router w (my_id s)).
    assert (FI : forall h1 to s1, Inv s1 -> Inv (fst (fst (fst (forward false h1 w1 (h_src h) to s1))))).
    { intros h1 to s1 I1. eapply (steps_Inv true); [apply st_forward|exact I1]. }
    pose proof (forward_tally h w1 (h_src h) (w_to w1) s) as A1.
    pose proof (level_forward false h w1 (h_src h) (w_to w1) s) as L1. pose proof (FI h (w_to w1) s I) as I1.
    destruct (forward false h w1 (h_src h) (w_to w1) s) as [[[s1 res] oe] h1]. cbn [fst snd] in *.
    change (w_to w1) with (w_to w) in *. change (w_flags w1) with (w_flags w).
    pose proof (level_is_child _ _ (w_to w) L1) as IC.
    destruct (Z.leb_spec 0 res) as [RP|RN]; cbn [andb].
    + destruct (is_child s1 (w_to w)) eqn:CH.
      { apply (O_copied _ _ _ _ _ []); auto. destruct oe as [e|]; [|exact A1]. destruct (_ && _ && _); [|exact A1].
        exact (tally_trans _ _ _ _ _ _ _ _ _ A1 (tally_inner _ _ (sync_quiet _ _ s1 I1))). }
      assert (RL : (res <? 0)%Z = false) by now apply Z.ltb_ge. rewrite RL. cbn [andb]. rewrite RL. cbn [orb].
      destruct (N.testbit _ _) eqn:FL; [|apply (O_copied _ _ _ _ _ []); auto].
      destruct (rsp_tally h1 w1 res s1 I1) as [T|T].
      * apply (O_copied _ _ _ _ _ []); auto. exact (tally_trans _ _ _ _ _ _ _ _ _ A1 T).
      * apply (O_copied _ _ _ _ _ [res]); auto; [exact (tally_trans _ _ _ _ _ _ _ _ _ A1 T)|]. right. exists res. rewrite <- IC. auto.
    + assert (RL : (res <? 0)%Z = true) by now apply Z.ltb_lt. rewrite RL. cbn [andb].
      assert (FAIL : forall s2 h2 code, Inv s2 -> tally s s2 0 0 [] -> (code < 0)%Z ->
        outcome c h w s (fst (if (code <? 0)%Z || N.testbit (w_flags w) 0 then transfer_rsp h2 w1 code s2 else (s2, code)))).
      { intros s2 h2 code I2 T2 N2. apply Z.ltb_lt in N2 as N3. rewrite N3. cbn [orb].
        destruct (rsp_tally h2 w1 code s2 I2) as [T|T]; [apply O_nothing|apply (O_failed _ _ _ _ _ code)]; auto;
          exact (tally_trans _ _ _ _ _ _ _ _ _ T2 T). }
      destruct (is_child s1 (w_to w)) eqn:CH; [rewrite andb_false_r; now apply FAIL|].
      destruct (negb (is_parent s1 (h_src h1))); cbn [andb negb]; [|now apply FAIL].
      destruct (parent s1) as [p|]; [|now apply FAIL].
      destruct (match oe with Some _ => _ | None => _ end); [|now apply FAIL].
      pose proof (forward_tally h1 w1 (h_src h) (e_id p) s1) as A2.
      pose proof (FI h1 (e_id p) s1 I1) as I2.
      destruct (forward false h1 w1 (h_src h) (e_id p) s1) as [[[s2 res2] oe2] h2]. cbn [fst snd] in *.
      pose proof (tally_trans _ _ _ _ _ _ _ _ _ A1 A2) as A. cbn [app plus Nat.add] in A.
      destruct (Z.leb_spec 0 res2) as [RP2|RN2]; [|now apply FAIL].
      assert (RL2 : (res2 <? 0)%Z = false) by now apply Z.ltb_ge. rewrite RL2. cbn [orb].
      destruct (N.testbit _ _) eqn:FL; [|apply (O_copied _ _ _ _ _ []); auto].
      destruct (rsp_tally h2 w1 res2 s2 I2) as [T|T].
      * apply (O_copied _ _ _ _ _ []); auto. exact (tally_trans _ _ _ _ _ _ _ _ _ A T).
      * apply (O_copied _ _ _ _ _ [res2]); auto; [exact (tally_trans _ _ _ _ _ _ _ _ _ A T)|]. right. exists res2. rewrite <- IC. auto.
Qed.
Lemma tally_pull c n s s' a b l : tally (on_c c (fun k => set_k_pull (bump (k_pull k) n) k) s) s' a b l -> tally s s' a b l.
Proof. intros (x & L & R). exists x. split; [exact L|exact R]. Qed.
(** The whole step: [recv_item] of a request. *)
Lemma recv_outcome c n m w s : Inv s -> m_body m = BData false w -> outcome c (m_head m) w s (recv_item c (RMsg n m) s).
Proof.
  intros I B. cbn [recv_item]. cbv zeta. rewrite on_recv_eq. set (s1 := on_c c _ s).
  assert (I1 : Inv s1) by now apply Inv_pull.
  pose proof (level_pull c n s : level s s1) as LV.
  set (m1 := stamp s1 c m).
  assert (B1 : m_body m1 = BData false w).
  { unfold m1, stamp. destruct (k_bind _); trivial. cbv zeta. now destruct (_ =? 0). }
  assert (H1 : h_ver (m_head m1) = h_ver (m_head m)).
  { unfold m1, stamp. destruct (k_bind _); trivial. cbv zeta. now destruct (_ =? 0). }
  assert (DO : outcome c (m_head m1) w s1 (fst (dispatch_msg c m1 s1))) by (unfold dispatch_msg; rewrite B1; now apply data_req_outcome).
  pose proof (tally_inner _ _ (adds_quiet_inner _ _ (qt_after c (dispatch_msg c m1 s1)))) as Q.
  assert (CONN : is_connected s1 c = is_connected s c) by (unfold is_connected; now rewrite (L_st _ _ LV)).
  assert (T : forall a b l, tally s1 (fst (dispatch_msg c m1 s1)) a b l -> tally s (after_recv c (dispatch_msg c m1 s1)) a b l).
  { intros a b l X. apply (tally_pull c n). exact (tally_trans _ _ _ _ _ _ _ _ _ X Q). }
  destruct DO as [X Y|code X Y Z|codes X Y Z|codes X Y Z].
  - apply O_nothing; auto. rewrite H1, CONN, (level_my _ _ LV) in Y. exact Y.
  - apply (O_failed _ _ _ _ _ code); auto. rewrite H1, (level_my _ _ LV) in Z. exact Z.
  - rewrite (level_my _ _ LV) in X. apply (O_delivered _ _ _ _ _ codes); auto.
  - rewrite (level_my _ _ LV) in X. apply (O_copied _ _ _ _ _ codes X); [now apply T|].
    destruct Z as [Z|(z & Z1 & Z2 & Z3 & Z4)]; [now left|right]. exists z. rewrite (level_is_child _ _ _ LV) in Z4. auto.
Qed.
