(** What the handlers of data messages do, seen from the trace. *)
From Verif Require Import Base Subnet Route Address NodeTypes NodeConn NodeCore NodeMsg Node
  NodeFrame NodeReset NodeInv NodeKeep NodeSteps NodeReach NodeSpec NodeLog NodeTrace.
Local Open Scope N_scope.
Ltac Zify.zify_post_hook ::= idtac.

(** Tables, endpoints and bindings unchanged. *)
Record level (s s' : node) : Prop := {
  L_cf : cf s' = cf s; L_nst : nst s' = nst s; L_self : self s' = self s; L_parent : parent s' = parent s;
  L_routes : routes s' = routes s; L_es : es s' = es s;
  L_bind : forall c, k_bind (cs s' c) = k_bind (cs s c);
  L_st : forall c, k_st (cs s' c) = k_st (cs s c);
  L_kind : forall c, k_kind (cs s' c) = k_kind (cs s c) }.
Lemma level_refl s : level s s. Proof. now constructor. Qed.
Lemma level_trans s1 s2 s3 : level s1 s2 -> level s2 s3 -> level s1 s3.
Proof. intros [] []. constructor; try congruence; intro c; etransitivity; eauto. Qed.
Lemma level_push c m s : level s (fst (push c m s)).
Proof.
  destruct (push_cs c m s) as (k & E & B & S & K).
  constructor; try fr1; intro x; rewrite E; destruct (N.eqb_spec x c) as [->|]; trivial.
Qed.
Lemma level_send_on c m s : level s (fst (send_on c m s)).
Proof. unfold send_on. destruct (_ <? _); [apply level_refl|apply level_push]. Qed.
Lemma level_my s s' : level s s' -> my_id s' = my_id s.
Proof. intros []. unfold my_id. now rewrite L_self0. Qed.
Lemma level_forward r h w f t s : level s (fst (fst (fst (forward r h w f t s)))).
Proof.
  unfold forward. destruct (t =? 0); [apply level_refl|]. destruct (_ =? t); [apply level_refl|].
  destruct (remote true s t) as [[z [e|]] [c|]]; try apply level_refl.
  destruct (_ && _); [apply level_refl|]. cbv zeta. set (m := {| m_head := _; m_body := _ |}).
  pose proof (level_send_on c m s) as L. now destruct (send_on c m s).
Qed.

(** ** Who is picked *)
Lemma conns_ctrl d c : d_ctrl d = Some c -> In c (conns d).
Proof. unfold conns. intros ->. now left. Qed.
Lemma sort_in s l c : In c (sort_conns s l) <-> In c l.
Proof.
  induction l as [|x l IH]; [reflexivity|]. cbn [sort_conns fold_right]. fold (sort_conns s l).
  assert (I : forall a k, In c (ins_conn s a k) <-> c = a \/ In c k).
  { intros a k. induction k as [|y k IHk]; cbn [ins_conn]; [cbn; intuition|].
    destruct (_ <=? _); cbn [In]; [intuition|]. rewrite IHk. intuition. }
  rewrite I, IH. cbn. intuition.
Qed.
Lemma ctrl_conn_in s e c : ctrl_conn s e = Some c -> In c (conns (es s (e_ref e))) /\ k_st (cs s c) = Connected.
Proof.
  unfold ctrl_conn. destruct (_ =? _); [discriminate|]. destruct (d_ctrl _) as [x|] eqn:D; [|discriminate].
  destruct (is_connected s x) eqn:K; [|discriminate]. intros [= ->]. split; [now apply conns_ctrl|].
  unfold is_connected in K. destruct (k_st (cs s c)); try discriminate; trivial.
Qed.
Lemma pick_in data s e c : pick data s e = Some c -> In c (conns (es s (e_ref e))) /\ k_st (cs s c) = Connected.
Proof.
  unfold pick. destruct data; [|apply ctrl_conn_in]. unfold data_conn. destruct (_ =? _); [discriminate|].
  destruct (find _ _) as [x|] eqn:F; [|apply ctrl_conn_in]. intros [= ->]. apply find_some in F as [I U].
  apply sort_in in I. split; [now apply conns_data|]. unfold usable in U. apply andb_prop in U as [K _].
  unfold is_connected in K. destruct (k_st (cs s c)); try discriminate; trivial.
Qed.
Lemma next_hop_tabled s id e : next_hop s id = Some e -> parent s = Some e \/ exists r, In (r, e) (routes s).
Proof.
  unfold next_hop. destruct (is_parent s id); [now left|]. destruct (find_route _ _) as [x|] eqn:F.
  - destruct (ep_is_child _ _ _).
    + intros [= ->]. right. unfold find_route in F. destruct (lower_bound _ _) as [[k y]|] eqn:B; [|discriminate].
      assert (y = e) by (destruct (_ =? _); [|destruct (contain_id _ _)]; congruence). subst y. exists k.
      clear -B. revert B. induction (routes s) as [|[r z] c IH]; cbn [lower_bound]; [discriminate|].
      destruct (range_ltb r _); [right; auto|]. intro X. injection X as -> ->. now left.
    + destruct (is_child s id); [discriminate|]. now left.
  - destruct (is_child s id); [discriminate|]. now left.
Qed.
Lemma remote_some data s id r e c : Inv s -> remote data s id = (r, Some e, Some c) ->
  r = E_OK /\ next_hop s id = Some e /\ pick data s e = Some c /\ k_bind (cs s c) = Some (e_ref e) /\
  d_ep (es s (e_ref e)) = e /\ k_st (cs s c) = Connected /\ id <> my_id s.
Proof.
  intros I. unfold remote. destruct (self s) as [me|]; [|discriminate]. destruct (nst s); [discriminate|..].
  all: destruct (N.eqb_spec id (my_id s)) as [|D]; [discriminate|]; destruct (next_hop s id) as [x|] eqn:NH; [|discriminate].
  all: destruct (pick data s x) as [y|] eqn:PK; [|discriminate]; intros [= <- <- <-].
  all: destruct (pick_in data s x y PK) as [IN ST]; split; [reflexivity|]; split; [reflexivity|]; split; [exact PK|];
    split; [now apply (I_bind s I)|]; split; [|now split].
  all: assert (T : tabled s x) by (destruct (next_hop_tabled s id x NH) as [T|[q T]]; [right; now left|right; right; left; now apply (in_map snd _ _ T)]);
    apply (I_tab s I x T).
Qed.

(** ** Messages to itself *)
(** Entries caused by the own queues. *)
Definition inner (t : tr) : Prop :=
  match t with TRecv _ c _ | TAnswer _ c _ => c = None | _ => ordinary t end.
Lemma ordinary_inner t : ordinary t -> inner t. Proof. destruct t; cbn; trivial; contradiction. Qed.
Lemma in_post d i m s : (i =? my_id s) = true -> log (fst (post d i m s)) = log s.
Proof.
  intro E. unfold post. rewrite E. destruct (nst s); [reflexivity|..].
  all: unfold number, alloc_seq; destruct (h_seq (m_head m) =? 0); destruct (m_body _); reflexivity.
Qed.
Lemma remote_any data s id r oe c : remote data s id = (r, oe, Some c) -> exists e, oe = Some e.
Proof.
  unfold remote. destruct (self s); [|discriminate]. destruct (nst s); [discriminate|..].
  all: destruct (_ =? _); [discriminate|]; destruct (next_hop s id); [|discriminate]; destruct (pick data s _); [|discriminate].
  all: intros [= _ <- _]; eauto.
Qed.
(** What [post] puts on the wire: one message, on the connection chosen for the id,
    unchanged but for the number. *)
Lemma post_adds (P : tr -> Prop) d i m s : Inv s ->
  (forall e c q z, remote d s i = (E_OK, Some e, Some c) ->
     P (TSend c (if h_seq (m_head m) =? 0 then set_seq q m else m) (x_size (cf s) (if h_seq (m_head m) =? 0 then set_seq q m else m)) z)) ->
  adds P s (fst (post d i m s)).
Proof.
  intros I H. destruct (i =? my_id s) eqn:E; [now apply adds_same, in_post|].
  unfold post. rewrite E. destruct (nst s) eqn:N; [apply adds_refl|..].
  all: destruct (remote d s i) as [[r oe] oc] eqn:R; destruct (r <? 0)%Z eqn:Z; [apply adds_refl|]; destruct oc as [c|]; [|apply adds_refl].
  all: destruct (remote_any _ _ _ _ _ _ R) as [e ->]; destruct (remote_some d s i r e c I R) as (-> & _).
  all: specialize (H e c); unfold number, alloc_seq; destruct (h_seq (m_head m) =? 0).
  all: try (apply adds_send_on; intro z; apply (H 0); reflexivity).
  all: cbv zeta; set (v := if _ =? 0 then 1 else _); set (s1 := set_seqn v s); eapply adds_trans; [apply (adds_same P s s1); reflexivity|];
    apply adds_send_on; intro z; apply (H v); reflexivity.
Qed.
Lemma adds_self_data m s : adds inner s (self_data m s).
Proof.
  unfold self_data. destruct (m_body m) as [[] w|?|?|?|?|?|]; try apply adds_refl.
  eapply adds_trans; [apply (adds_emit inner (TRecv (Some (my_ref s)) None m)); reflexivity|].
  destruct (N.testbit _ _); [|apply adds_refl]. apply adds_emit. reflexivity.
Qed.
Lemma adds_quiet_inner s s' : quiet s s' -> adds inner s s'.
Proof. apply adds_impl, ordinary_inner. Qed.
Lemma inner_post_cmd d i q h s : Inv s -> adds inner s (fst (post d i {| m_head := h; m_body := BCmd true q |} s)).
Proof. intro I. apply post_adds; trivial. intros e c k z _. destruct (_ =? 0); reflexivity. Qed.
Lemma inner_cmd_req h q s : Inv s -> adds inner s (fst (cmd_req None h q s)).
Proof.
  intro I. unfold cmd_req.
  assert (SC : forall data ty code seq from s, Inv s -> adds inner s (fst (send_cmd_rsp None data ty code seq from s))).
  { intros data ty code seq from s0 I0. unfold send_cmd_rsp.
    pose proof (log_gen_keys (x_tokens (cf s0)) s0) as L. pose proof (steps_Inv _ _ _ (st_gen_keys true (x_tokens (cf s0)) s0 I0) I0) as I1.
    destruct (gen_keys _ s0) as [s1 ks]. cbn [fst] in L, I1. eapply adds_trans; [apply (adds_same inner s0 s1 L)|]. now apply inner_post_cmd. }
  destruct (_ <? _)%Z; [now apply SC|]. destruct (negb _); [apply adds_refl|]. destruct (negb _); [now apply SC|].
  cbv zeta. eapply adds_trans; [apply (adds_emit inner (TCmd None (q_from q) (q_args q))); exact Logic.I|].
  destruct (_ || _); [|apply adds_refl]. apply SC.
  eapply (steps_Inv true); [apply st_emit; exact Logic.I|exact I].
Qed.
Lemma adds_self_cmd m s : Inv s -> adds inner s (self_cmd m s).
Proof.
  intro I. unfold self_cmd. destruct (m_body m) as [?|[] q|?|?|?|?|]; try apply adds_refl; [|now apply inner_cmd_req].
  apply adds_quiet_inner, qt_cmd_rsp.
Qed.
Lemma inv_self_data m s : Inv s -> Inv (self_data m s).
Proof. intro I. eapply (steps_Inv true); [apply st_self_data|exact I]; trivial. Qed.
Lemma adds_data_loop n : forall s, Inv s -> adds inner s (fst (fst (self_data_loop n s))) /\ Inv (fst (fst (self_data_loop n s))).
Proof.
  induction n as [|n IH]; intros s I; cbn [self_data_loop]; [split; [apply adds_refl|exact I]|].
  destruct (qdata s) as [|m l]; [split; [apply adds_refl|exact I]|]. cbv zeta.
  assert (I1 : Inv (set_qdata (tl (qdata (self_data m s))) (self_data m s))).
  { eapply (steps_Inv true); [apply st_qdata|]. now apply inv_self_data. }
  pose proof (adds_self_data m s) as A. destruct (IH _ I1) as [B C].
  destruct (self_data_loop n _) as [[s2 r] k]. cbn [fst] in *. split; [|exact C].
  eapply adds_trans; [exact A|exact B].
Qed.
Lemma adds_cmd_loop n : forall s, Inv s -> adds inner s (fst (self_cmd_loop n s)).
Proof.
  induction n as [|n IH]; intros s I; cbn [self_cmd_loop]; [apply adds_refl|].
  destruct (qcmd s) as [|m l]; [apply adds_refl|]. cbv zeta.
  assert (I0 : Inv (self_cmd m s)) by (eapply (steps_Inv true); [apply st_self_cmd|exact I]; trivial).
  assert (I1 : Inv (set_qcmd (tl (qcmd (self_cmd m s))) (self_cmd m s))) by (eapply (steps_Inv true); [apply st_qcmd|exact I0]).
  pose proof (adds_self_cmd m s I) as A. pose proof (IH _ I1) as B.
  destruct (self_cmd_loop n _) as [s2 k]. cbn [fst] in *. eapply adds_trans; [exact A|exact B].
Qed.
Lemma adds_dispatch_self s : Inv s -> adds inner s (fst (dispatch_self s)).
Proof.
  intro I. unfold dispatch_self. destruct (fl_self s); [apply adds_refl|]. cbv zeta.
  set (n := if _ =? 0 then _ else _). clearbody n.
  assert (I1 : Inv (set_fl_self true s)) by (eapply (steps_Inv true); [apply st_fl_self|exact I]).
  destruct (adds_data_loop n _ I1) as [A B]. destruct (self_data_loop n _) as [[s2 r] k]. cbn [fst] in A, B.
  pose proof (adds_cmd_loop r s2 B) as C. destruct (self_cmd_loop r s2) as [s3 k2]. cbn [fst] in *.
  eapply adds_trans; [exact A|]. eapply adds_trans; [exact C|]. now apply adds_same.
Qed.
Lemma send_to_adds (P : tr -> Prop) d i m s : Inv s -> (forall t, inner t -> P t) ->
  (forall e c q z, remote d s i = (E_OK, Some e, Some c) ->
     P (TSend c (if h_seq (m_head m) =? 0 then set_seq q m else m) (x_size (cf s) (if h_seq (m_head m) =? 0 then set_seq q m else m)) z)) ->
  adds P s (fst (send_to d i m s)).
Proof.
  intros I H0 H. unfold send_to. cbv zeta. pose proof (post_adds P d i m s I H) as A.
  pose proof (steps_Inv _ _ _ (st_post true d i m s I) I) as I1.
  destruct (post d i m s) as [s1 r]. cbn [fst] in A, I1. destruct (_ && _); [|exact A]. cbn [fst].
  eapply adds_trans; [exact A|]. eapply adds_impl; [exact H0|now apply adds_dispatch_self].
Qed.

(** ** Data messages *)
(** Everything a received data message may cause.  [f] is the direct source, [w] the
    message, [me] the own id; [owner c] is the id of the endpoint a connection is bound
    to.  A copy that is passed on keeps everything but the direct source and the router
    list; a response turns the message around. *)
Section Effects.
Variables (c : N) (h : head) (rsp : bool) (w : fwd) (s : node).
Definition copied (m : msg) (w' : fwd) : Prop :=
  h_ver (m_head m) = h_ver h /\ h_type (m_head m) = h_type h /\ h_ret (m_head m) = h_ret h /\
  h_seq (m_head m) = h_seq h /\
  w_from w' = w_from w /\ w_to w' = w_to w /\ w_content w' = w_content w /\ w_flags w' = w_flags w /\
  w_router w' = w_router w ++ (if rsp then [] else [my_id s]).
Definition turned (m : msg) (w' : fwd) : Prop :=
  h_ver (m_head m) = h_ver h /\ h_type (m_head m) = h_type h /\ (h_seq h <> 0 -> h_seq (m_head m) = h_seq h) /\
  w_from w' = w_to w /\ w_to w' = w_from w /\ w_content w' = w_content w /\ w_flags w' = w_flags w.
Definition effect (t : tr) : Prop :=
  match t with
  | TSend c' m _ _ =>
      match m_body m with
      | BData b w' =>
          h_src (m_head m) = my_id s /\
          if Bool.eqb b rsp
          then is_connected s c = true /\ copied m w' /\ w_to w <> my_id s /\
               (rsp = false -> N.of_nat (length (w_router w)) < x_ttl (cf s)) /\
               exists e, k_bind (cs s c') = Some e /\ is_connected s c' = true /\ (h_src h <> 0 -> e_id (d_ep (es s e)) <> h_src h)
          else rsp = false /\ turned m w'
      | _ => True
      end
  | TRecv e (Some c') m =>
      rsp = false /\ c' = c /\ e = k_bind (cs s c) /\ is_connected s c = true /\ m = {| m_head := h; m_body := BData false w |} /\ w_to w = my_id s
  | TAnswer e (Some c') m =>
      rsp = true /\ c' = c /\ e = k_bind (cs s c) /\ is_connected s c = true /\ m = {| m_head := h; m_body := BData true w |} /\ w_to w = my_id s
  | TPing _ _ | TPong _ _ | TCmd (Some _) _ _ => False
  | _ => True
  end.
Lemma inner_effect t : inner t -> effect t.
Proof.
  destruct t as [c0 m n r|e oc m|e oc m| | | | | | | | | | | | | | | | | | | |]; cbn; trivial.
  - unfold is_data. destruct (m_body m); trivial; discriminate.
  - intros ->. exact Logic.I.
  - intros ->. exact Logic.I.
Qed.
Lemma ordinary_effect t : ordinary t -> effect t. Proof. intro. now apply inner_effect, ordinary_inner. Qed.
Lemma quiet_effect s1 s2 : quiet s1 s2 -> adds effect s1 s2. Proof. apply adds_impl, ordinary_effect. Qed.
End Effects.

Lemma turn_turned h w s x q : (h_seq h <> 0 -> x = h_seq h) -> q = turn (my_id s) w ->
  forall z, turned h w {| m_head := {| h_ver := h_ver h; h_type := h_type h; h_ret := z; h_seq := x; h_src := my_id s |}; m_body := BData true q |} q.
Proof.
  intros X -> z. unfold turned, turn. cbn [m_head h_ver h_type h_seq]. destruct (match w_router w with [] => false | _ => _ end); cbn; repeat split; trivial.
Qed.
(** [s0] is the state in which the message arrived. *)
Lemma transfer_effect c h w h1 w1 code s0 s : Inv s -> level s0 s ->
  h_ver h1 = h_ver h -> h_type h1 = h_type h -> h_seq h1 = h_seq h ->
  w_from w1 = w_from w -> w_to w1 = w_to w -> w_content w1 = w_content w -> w_flags w1 = w_flags w ->
  adds (effect c h false w s0) s (fst (transfer_rsp h1 w1 code s)).
Proof.
  intros I L V T Q F TO C FL. unfold transfer_rsp. apply send_to_adds; trivial; [apply inner_effect|].
  intros e c' q z R. cbn [m_head set_ret_src h_seq].
  assert (G : forall x, (h_seq h <> 0 -> x = h_seq h) ->
    effect c h false w s0 (TSend c' {| m_head := {| h_ver := h_ver h1; h_type := h_type h1; h_ret := code; h_seq := x; h_src := my_id s |};
       m_body := BData true (turn (my_id s) w1) |} (x_size (cf s) {| m_head := {| h_ver := h_ver h1; h_type := h_type h1; h_ret := code; h_seq := x; h_src := my_id s |};
       m_body := BData true (turn (my_id s) w1) |}) z)).
  { intros x X. cbn [effect m_body m_head h_src Bool.eqb]. split; [now apply level_my|]. split; [reflexivity|].
    pose proof (turn_turned h1 w1 s x (turn (my_id s) w1)) as TT. unfold turned in *. rewrite Q in TT. specialize (TT X eq_refl code).
    cbn [m_head h_ver h_type h_seq] in *. rewrite V, T, F, TO, C, FL in TT. cbn [m_head h_ver h_type h_seq].
    rewrite V, T. exact TT. }
  destruct (N.eqb_spec (h_seq h1) 0) as [E|E].
  - apply (G q). congruence.
  - change (set_ret_src code (my_id s) h1) with {| h_ver := h_ver h1; h_type := h_type h1; h_ret := code; h_seq := h_seq h1; h_src := my_id s |}.
    apply (G (h_seq h1)). congruence.
Qed.
Lemma forward_effect rsp c h w h1 w1 to s0 s : Inv s -> level s0 s -> is_connected s0 c = true -> w_to w <> my_id s0 ->
  (rsp = false -> N.of_nat (length (w_router w)) < x_ttl (cf s0)) ->
  h_ver h1 = h_ver h -> h_type h1 = h_type h -> h_ret h1 = h_ret h -> h_seq h1 = h_seq h ->
  w_from w1 = w_from w -> w_to w1 = w_to w -> w_content w1 = w_content w -> w_flags w1 = w_flags w ->
  w_router w1 = w_router w ++ (if rsp then [] else [my_id s0]) ->
  adds (effect c h rsp w s0) s (fst (fst (fst (forward rsp h1 w1 (h_src h) to s)))).
Proof.
  intros I L CN TM TTL V T RT Q F TO C FL RO. unfold forward. destruct (to =? 0); [apply adds_refl|]. destruct (_ =? to); [apply adds_refl|].
  destruct (remote true s to) as [[r [e|]] [c'|]] eqn:R; try apply adds_refl.
  destruct (_ && _) eqn:B; [apply adds_refl|]. cbv zeta. set (m := {| m_head := _; m_body := _ |}).
  pose proof (adds_send_on (effect c h rsp w s0) c' m s) as A. destruct (send_on c' m s) as [s1 z]. cbn [fst] in *. apply A.
  intro z'. cbn [effect m m_body m_head set_ret_src h_src h_ver h_type h_seq h_ret]. rewrite Bool.eqb_reflx.
  destruct (remote_some true s to r e c' I R) as (_ & _ & _ & BD & DE & ST & _).
  split; [now apply level_my|]. split; [exact CN|]. split; [now repeat split|]. split; [exact TM|]. split; [exact TTL|].
  exists (e_ref e). rewrite (L_bind _ _ L) in BD. split; [exact BD|]. split; [unfold is_connected; rewrite <- (L_st _ _ L), ST; reflexivity|].
  intro NZ. rewrite (L_es _ _ L) in DE. rewrite DE. apply N.eqb_neq in NZ. rewrite NZ in B. cbn in B. now apply N.eqb_neq.
Qed.
Lemma sync_quiet x y s : Inv s -> adds inner s (fst (connect_sync x y s)).
Proof.
  intro I. unfold connect_sync. destruct (sync_address s x y) as [[|b a]|]; try apply adds_refl.
  unfold alloc_seq. cbv zeta. set (v := if _ =? 0 then 1 else _). set (s1 := set_seqn v s).
  eapply adds_trans; [apply (adds_same inner s s1); reflexivity|].
  assert (I1 : Inv s1) by (eapply (steps_Inv true); [apply st_seqn|exact I]).
  apply send_to_adds; trivial. intros e c q z R. cbn [m_head h_seq]. destruct (v =? 0); reflexivity.
Qed.
Lemma forward_head rsp h w f t s : let h1 := snd (forward rsp h w f t s) in
  h_ver h1 = h_ver h /\ h_type h1 = h_type h /\ h_ret h1 = h_ret h /\ h_seq h1 = h_seq h.
Proof.
  unfold forward. destruct (_ =? _); [now repeat split|]. destruct (_ =? _); [now repeat split|].
  destruct (remote _ _ _) as [[r [e|]] [c|]]; try (now repeat split). destruct (_ && _); [now repeat split|].
  cbv zeta. destruct (send_on _ _ _). now repeat split.
Qed.
Lemma data_req_effect c h w s : Inv s -> adds (effect c h false w s) s (fst (data_req c h w s)).
Proof.
  intro I. unfold data_req. destruct (_ <? _)%Z; [apply transfer_effect; trivial; apply level_refl|].
  destruct (is_connected s c) eqn:CN; [cbn [negb]|apply adds_refl].
  destruct (N.eqb_spec (w_to w) (my_id s)) as [TM|TM].
  - cbv zeta. set (s1 := emit _ s).
    assert (I1 : Inv s1) by (eapply (steps_Inv true); [apply st_emit; exact Logic.I|exact I]).
    assert (L1 : level s s1) by now constructor.
    assert (A : adds (effect c h false w s) s s1) by (apply adds_emit; cbn [effect]; now repeat split).
    destruct (N.testbit _ _); [|exact A]. eapply adds_trans; [exact A|]. now apply transfer_effect.
  - destruct (x_ttl (cf s) <=? N.of_nat (length (w_router w))) eqn:TT; [apply transfer_effect; trivial; apply level_refl|].
    apply N.leb_gt in TT. cbv zeta. set (w1 := add_router w (my_id s)).
    assert (FE : forall h1 to s1, Inv s1 -> level s s1 -> h_ver h1 = h_ver h -> h_type h1 = h_type h -> h_ret h1 = h_ret h -> h_seq h1 = h_seq h ->
      adds (effect c h false w s) s1 (fst (fst (fst (forward false h1 w1 (h_src h) to s1))))).
    { intros h1 to s1 I1 L1 V T RT Q. now apply forward_effect. }
    assert (TE : forall h1 code s1, Inv s1 -> level s s1 -> h_ver h1 = h_ver h -> h_type h1 = h_type h -> h_ret h1 = h_ret h -> h_seq h1 = h_seq h ->
      adds (effect c h false w s) s1 (fst (transfer_rsp h1 w1 code s1))).
    { intros h1 code s1 I1 L1 V T RT Q. now apply transfer_effect. }
    assert (SE : forall x y s1, Inv s1 -> adds (effect c h false w s) s1 (fst (connect_sync x y s1))).
    { intros x y s1 I1. eapply adds_impl; [apply inner_effect|now apply sync_quiet]. }
    assert (FI : forall h1 to s1, Inv s1 -> Inv (fst (fst (fst (forward false h1 w1 (h_src h) to s1))))).
    { intros h1 to s1 I1. eapply (steps_Inv true); [apply st_forward|exact I1]. }
    pose proof (FE h (w_to w1) s I (level_refl s) eq_refl eq_refl eq_refl eq_refl) as A1.
    pose proof (level_forward false h w1 (h_src h) (w_to w1) s) as L1.
    pose proof (FI h (w_to w1) s I) as I1.
    pose proof (forward_head false h w1 (h_src h) (w_to w1) s) as H1. cbv zeta in H1.
    destruct (forward false h w1 (h_src h) (w_to w1) s) as [[[s1 res] oe] h1]. cbn [fst snd] in *. destruct H1 as (V1 & T1 & R1 & Q1).
    destruct (_ && _).
    { destruct oe as [e|]; [|exact A1]. destruct (_ && _ && _); [|exact A1]. eapply adds_trans; [exact A1|now apply SE]. }
    assert (FIN : forall s2 res2 h2, Inv s2 -> level s s2 -> h_ver h2 = h_ver h -> h_type h2 = h_type h -> h_ret h2 = h_ret h -> h_seq h2 = h_seq h ->
      adds (effect c h false w s) s s2 ->
      adds (effect c h false w s) s (fst (if (res2 <? 0)%Z || N.testbit (w_flags w1) 0 then transfer_rsp h2 w1 res2 s2 else (s2, res2)))).
    { intros s2 res2 h2 I2 L2 V2 T2 R2 Q2 A2. destruct (_ || _); [|exact A2]. eapply adds_trans; [exact A2|now apply TE]. }
    destruct (_ && _ && _); [|now apply FIN]. destruct (parent s1) as [p|]; [|now apply FIN].
    destruct (match oe with Some _ => _ | None => _ end); [|now apply FIN].
    pose proof (FE h1 (e_id p) s1 I1 L1 V1 T1 R1 Q1) as A2.
    pose proof (level_forward false h1 w1 (h_src h) (e_id p) s1) as L2.
    pose proof (FI h1 (e_id p) s1 I1) as I2.
    pose proof (forward_head false h1 w1 (h_src h) (e_id p) s1) as H2. cbv zeta in H2.
    destruct (forward false h1 w1 (h_src h) (e_id p) s1) as [[[s2 res2] oe2] h2]. cbn [fst snd] in *. destruct H2 as (V2 & T2 & R2 & Q2).
    apply FIN; trivial; try congruence; [eapply level_trans; eauto|eapply adds_trans; eauto].
Qed.
Lemma data_rsp_effect c h w s : Inv s -> adds (effect c h true w s) s (fst (data_rsp c h w s)).
Proof.
  intro I. unfold data_rsp. destruct (is_connected s c) eqn:CN; [cbn [negb]|apply adds_refl].
  destruct (N.eqb_spec (w_to w) (my_id s)) as [TM|TM].
  - apply adds_emit. cbn [effect]. now repeat split.
  - pose proof (forward_effect true c h w h w (w_to w) s s I (level_refl s) CN TM) as A.
    destruct (forward true h w (h_src h) (w_to w) s) as [[[s1 r] oe] h1]. cbn [fst] in *. apply A; trivial; [discriminate|].
    now rewrite app_nil_r.
Qed.
