(** The ping loop. *)
From Coq Require Import Sorted.
From Verif Require Import Base Subnet Route Address NodeTypes NodeConn NodeCore NodeMsg Node
  NodeFrame NodeReset NodeInv NodeKeep NodeSteps NodeCtx NodeReach NodeLog NodeAuth NodeTime.
Local Open Scope N_scope.
Ltac Zify.zify_post_hook ::= idtac.

(** ** Effects limited to one endpoint *)
Record about1 (e : N) (s s' : node) : Prop := {
  B_pings : pings s' = pings s;
  B_es : forall x, x <> e -> es s' x = es s x;
  B_ctrl : d_ctrl (es s' e) = d_ctrl (es s e);
  B_data : d_data (es s' e) = d_data (es s e);
  B_timer : d_timer (es s' e) = d_timer (es s e);
  B_ep : d_ep (es s' e) = d_ep (es s e);
  B_st : forall c, k_st (cs s' c) = k_st (cs s c);
  B_bind : forall c, k_bind (cs s' c) = k_bind (cs s c);
  B_sec : sec s' = sec s;
  B_cf : cf s' = cf s;
  B_self : self s' = self s }.
Lemma ab_refl e s : about1 e s s. Proof. now constructor. Qed.
Lemma ab_trans e s1 s2 s3 : about1 e s1 s2 -> about1 e s2 s3 -> about1 e s1 s3.
Proof. intros [A1 A2 A3 A4 A5 A6 A7 A8 A9 A10 A11] [C1 C2 C3 C4 C5 C6 C7 C8 C9 C10 C11]. constructor; try congruence; intros; rewrite ?C2, ?C7, ?C8; auto. Qed.
Lemma ab_es e f s : (forall d, d_ctrl (f d) = d_ctrl d /\ d_data (f d) = d_data d /\ d_timer (f d) = d_timer d /\ d_ep (f d) = d_ep d) ->
  about1 e s (on_e e f s).
Proof.
  intros F. destruct (F (es s e)) as (F1 & F2 & F3 & F4). constructor; try reflexivity; rewrite ?es_on_e, ?N.eqb_refl; trivial.
  intros x X. rewrite es_on_e. now destruct (N.eqb_spec x e).
Qed.
Lemma ab_same e s s' : pings s' = pings s -> es s' = es s -> cs s' = cs s -> sec s' = sec s -> cf s' = cf s -> self s' = self s -> about1 e s s'.
Proof. intros A B C D E F. constructor; rewrite ?B, ?C; trivial. Qed.
Lemma ab_fault e s : about1 e s (fst (ep_fault e s)).
Proof.
  unfold ep_fault. cbv zeta. set (s1 := emit _ (on_e e _ s)).
  assert (H : about1 e s s1) by (eapply ab_trans; [apply (ab_es e (fun d => set_d_fault (d_fault d + 1) d)); repeat split|apply ab_same; reflexivity]).
  eapply ab_trans; [exact H|]. clearbody s1. destruct (_ <? _); [|apply ab_refl]. cbn [fst]. apply ab_same; fr1.
Qed.
Lemma ab_send e c m s : about1 e s (fst (send_on c m s)).
Proof.
  unfold send_on. destruct (_ <? _); [apply ab_refl|]. destruct (push_cs c m s) as (k & K & K1 & K2 & K3).
  constructor; try fr1; try (intros; now rewrite (keeps2 (f := es) (h := push c m))); try (now rewrite (keeps2 (f := es) (h := push c m)));
    intro x; rewrite K; destruct (N.eqb_spec x c) as [->|]; auto.
Qed.
Lemma ab_fault_drop e s : about1 e s (fst (fault_drop true e s)).
Proof.
  unfold fault_drop. pose proof (ab_fault e s) as H. destruct (ep_fault e s) as [s1 g]. cbn [fst] in *. now rewrite andb_false_r.
Qed.
Lemma ab_ping e s : about1 e s (fst (ping_endpoint true e s)).
Proof.
  unfold ping_endpoint.
  assert (H : about1 e s (fst (if d_ping (es s e) =? 0 then (s, false) else fault_drop true e s))).
  { destruct (_ =? _); [apply ab_refl|apply ab_fault_drop]. }
  destruct (if d_ping (es s e) =? 0 then _ else _) as [s1 g]. cbn [fst] in H. eapply ab_trans; [exact H|]. clear H s.
  destruct g; [apply ab_refl|]. destruct (self s1); [|apply ab_refl]. destruct (_ =? _); [apply ab_refl|].
  destruct (ctrl_conn s1 _) as [c|]; [|apply ab_fault_drop].
  assert (H : about1 e s1 (fst (alloc_seq s1))) by (apply ab_same; fr1). destruct (alloc_seq s1) as [s2 q]. cbn [fst] in H.
  eapply ab_trans; [exact H|]. clear H. unfold send_ping.
  match goal with |- context [send_on c ?m s2] => pose proof (ab_send e c m s2) as H; destruct (send_on c m s2) as [s3 r] end.
  cbn [fst] in H. eapply ab_trans; [exact H|]. clear H. destruct (_ <? _)%Z; [apply ab_fault_drop|]. cbn [fst].
  eapply ab_trans; [|apply ab_es; repeat split]. destruct (data_conn _ _ _); [apply ab_refl|].
  pose proof (ab_fault e s3) as H. destruct (ep_fault e s3) as [s4 g]. cbn [fst] in H. rewrite andb_false_r. exact H.
Qed.

(** ** Which endpoints are given up *)
Definition idle_ep (now e : N) (s : node) : Prop :=
  is_available s e = false /\ 0 < d_created (es s e) /\ d_created (es s e) + x_first (cf s) < now.
Lemma idle_out_true now e s : now <= sec s -> snd (idle_out now e s) = true -> fst (idle_out now e s) = s /\ idle_ep now e s.
Proof.
  intros W. unfold idle_out, created, idle_ep. destruct (is_available s e); [discriminate|].
  destruct (N.ltb_spec 0 (d_created (es s e))) as [L|L]; cbn [fst snd].
  - intro H. apply N.ltb_lt in H. auto.
  - intro H. apply N.ltb_lt in H. lia.
Qed.
Lemma idle_out_idle now e s : idle_ep now e s -> idle_out now e s = (s, true).
Proof.
  intros (A & B & C). unfold idle_out, created. rewrite A. apply N.ltb_lt in B. rewrite B. apply N.ltb_lt in C. now rewrite C.
Qed.
Lemma available_same s s' e : d_ctrl (es s' e) = d_ctrl (es s e) -> d_data (es s' e) = d_data (es s e) ->
  (forall c, In c (d_data (es s e)) -> k_st (cs s' c) = k_st (cs s c)) -> is_available s' e = is_available s e.
Proof.
  intros A B C. unfold is_available. rewrite A, B. destruct (d_ctrl (es s e)); [|reflexivity]. clear A B.
  induction (d_data (es s e)) as [|c l IH]; [reflexivity|]. cbn. rewrite IH by (intros; apply C; now right). f_equal.
  unfold is_running. now rewrite C by now left.
Qed.

Lemma pings_cleared e s : Inv s -> pings (clear_ping e s) = filter (fun p => negb (snd p =? e)) (pings s).
Proof.
  intro I. rewrite pings_clear_ping. destruct (d_timer (es s e)) eqn:T; [reflexivity|]. symmetry. apply filter_true.
  intros p P. destruct (N.eqb_spec (snd p) e) as [E|]; [|reflexivity]. exfalso. apply (in_map snd) in P. rewrite E in P.
  apply (I_timer s I) in P. congruence.
Qed.

(** ** The loop does not end when an idle endpoint is found while another timer is due *)
Lemma stuck_again now e s : Inv s -> 0 < e < nexte s -> idle_ep now e s ->
  let s' := add_ping (d_ep (es s e)) (gc_ep (d_ep (es s e)) s) in
  Inv s' /\ 0 < e < nexte s' /\ idle_ep now e s' /\ exists r', pings s' = filter (fun p => negb (snd p =? e)) (pings s) ++ r'.
Proof.
  intros I R H. cbv zeta. assert (EX : e_ref (d_ep (es s e)) = e) by now apply (I_ref s).
  assert (A : alive s (d_ep (es s e))) by (now apply alive_d).
  set (x := d_ep (es s e)) in *. clearbody x.
  assert (S : steps true s (gc_ep x s)) by eauto with st.
  assert (I1 : Inv (gc_ep x s)) by (eapply steps_Inv; eauto).
  assert (Q : pings (gc_ep x s) = pings s /\ es (gc_ep x s) = es s /\ cs (gc_ep x s) = cs s /\ cf (gc_ep x s) = cf s /\ nexte (gc_ep x s) = nexte s)
    by (repeat split; fr1).
  destruct Q as (Q1 & Q2 & Q3 & Q4 & Q5). set (s1 := gc_ep x s) in *. clearbody s1.
  assert (A1 : alive s1 x) by (unfold alive in *; now rewrite Q2, Q5).
  assert (S1 : steps true s1 (add_ping x s1)) by eauto with st.
  split; [eapply steps_Inv; eauto|]. split; [rewrite (keeps (f := nexte) (g := add_ping x)); lia|].
  assert (ES : forall y, exists b, es (add_ping x s1) y = if y =? e then set_d_timer b (es s1 y) else es s1 y).
  { intro y. unfold add_ping, insert_ping. rewrite EX. destruct (_ || _).
    - exists false. rewrite es_clear_ping, N.eqb_sym. destruct (N.eqb_spec e y) as [->|]; [|reflexivity]. destruct (es s1 y) as []; reflexivity.
    - exists true. rewrite es_on_e. cbn [es set_pings]. rewrite !es_clear_ping. destruct (N.eqb_spec y e) as [->|]; [|reflexivity].
      rewrite N.eqb_refl. reflexivity. }
  split.
  - destruct H as (H1 & H2 & H3). destruct (ES e) as [b E]. rewrite N.eqb_refl in E. unfold idle_ep.
    rewrite E, (keeps (f := cf) (g := add_ping x)), Q4. cbn [d_created set_d_timer]. rewrite Q2. split; [|now split].
    rewrite <- H1. apply available_same.
    + now rewrite E, Q2.
    + now rewrite E, Q2.
    + intros c _. now rewrite (keeps (f := cs) (g := add_ping x)), Q3.
  - unfold add_ping, insert_ping. rewrite EX.
    assert (PC : pings (clear_ping e s1) = filter (fun p => negb (snd p =? e)) (pings s)) by (rewrite <- Q1; now apply pings_cleared).
    destruct (_ || _); [exists []; now rewrite app_nil_r|]. cbn. rewrite PC. eauto.
Qed.
Theorem ping_loop_stuck now e t e0 n : forall s r, Inv s -> 0 < e < nexte s -> idle_ep now e s -> pings s = (t, e0) :: r -> e0 <> e -> t <= now ->
  ping_loop n now (Some e) s = None.
Proof.
  induction n as [|n IH]; intros s r I R H P D L; [reflexivity|]. cbn [ping_loop]. rewrite P.
  destruct (N.ltb_spec now t); [lia|]. rewrite (idle_out_idle now e s H).
  destruct (stuck_again now e s I R H) as (I' & R' & H' & r' & P'). rewrite P in P'. cbn [filter snd] in P'.
  destruct (N.eqb_spec e0 e); [contradiction|]. cbn in P'. eapply IH; eauto.
Qed.
Lemma timer_range s t e : Inv s -> In (t, e) (pings s) -> 0 < e < nexte s.
Proof.
  intros I P. assert (T : d_timer (es s e) = true) by (apply (I_timer s I); now apply (in_map snd) in P).
  assert (D : (0 < e < nexte s) \/ ~ (0 < e < nexte s)) by lia. destruct D as [D|D]; [exact D|]. apply (I_freshe s I) in D as [_ D]. congruence.
Qed.
(** Two timers are due and the first belongs to an idle endpoint. *)
Theorem ping_loop_hangs now s t a t2 b r n : Inv s -> pings s = (t, a) :: (t2, b) :: r -> t <= now -> t2 <= now -> idle_ep now a s ->
  ping_loop n now None s = None.
Proof.
  intros I P L L2 H. destruct n as [|n]; [reflexivity|]. cbn [ping_loop]. rewrite P. destruct (N.ltb_spec now t); [lia|].
  rewrite (idle_out_idle now a s H).
  assert (RE : 0 < a < nexte s) by (apply (timer_range s t); [exact I|rewrite P; now left]).
  assert (D : b <> a). { pose proof (I_ping s I) as ND. rewrite P in ND. cbn in ND. apply NoDup_cons_iff in ND as [ND _]. intros ->. apply ND. now left. }
  destruct (stuck_again now a s I RE H) as (I' & R' & H' & r' & P'). rewrite P in P'. cbn [filter snd] in P'.
  rewrite N.eqb_refl in P'. destruct (N.eqb_spec b a); [contradiction|]. cbn in P'. eapply ping_loop_stuck; eauto.
Qed.

(** ** Otherwise it ends *)
Record handled (now e : N) (s s' : node) : Prop := {
  H_inv : Inv s';
  H_sec : sec s' = sec s;
  H_cf : cf s' = cf s;
  H_next : nexte s <= nexte s';
  H_pings : exists l, pings s' = filter (fun p => negb (snd p =? e)) (pings s) ++ l /\ Forall (fun p => now < fst p /\ snd p = e) l;
  H_other : forall x, x <> e -> is_available s' x = is_available s x /\ d_created (es s' x) = d_created (es s x) }.
Definition handle (now e : N) (s : node) : node :=
  let s := fst (idle_out now e s) in
  let s := if match parent s with Some p => e_ref p =? e | None => false end then s else fst (ping_endpoint true e s) in
  add_ping (d_ep (es s e)) s.
Lemma ab_idle now e s : about1 e s (fst (idle_out now e s)).
Proof.
  unfold idle_out. destruct (is_available s e); [apply ab_refl|]. unfold created. destruct (_ <? _); [apply ab_refl|]. cbn [fst]. apply ab_es. repeat split.
Qed.
Lemma handle_ok now e s : Inv s -> now <= sec s -> 0 < e < nexte s -> handled now e s (handle now e s).
Proof.
  intros I W R. unfold handle. cbv zeta.
  set (s1 := fst (idle_out now e s)). assert (S1 : steps true s s1) by (subst s1; eauto with st).
  assert (I1 : Inv s1) by (eapply steps_Inv; eauto). assert (A1 : about1 e s s1) by apply ab_idle.
  assert (R1 : 0 < e < nexte s1) by (destruct (steps_grow _ _ _ I S1); lia).
  clearbody s1. set (b := match parent s1 with Some p => e_ref p =? e | None => false end). set (s2 := if b then s1 else fst (ping_endpoint true e s1)).
  assert (S2 : steps true s1 s2) by (subst s2; destruct b; [apply steps_refl|eauto with st]).
  assert (I2 : Inv s2) by (eapply steps_Inv; eauto).
  assert (A2 : about1 e s s2).
  { eapply ab_trans; [exact A1|]. subst s2. destruct b; [apply ab_refl|apply ab_ping]. }
  assert (R2 : 0 < e < nexte s2) by (destruct (steps_grow _ _ _ I1 S2); lia).
  assert (R3 : nexte s <= nexte s2) by (destruct (steps_grow _ _ _ I1 S2), (steps_grow _ _ _ I S1); lia).
  clearbody s2 b. clear I1 R1 S1 S2 A1 s1 b.
  assert (AL : alive s2 (d_ep (es s2 e))) by (now apply alive_d).
  assert (EX : e_ref (d_ep (es s2 e)) = e) by (now apply (I_ref s2)).
  set (x := d_ep (es s2 e)) in *. clearbody x.
  assert (S3 : steps true s2 (add_ping x s2)) by eauto with st.
  destruct A2 as [B1 B2 B3 B4 B5 B6 B7 B8 B9 B10 B11].
  constructor.
  - eapply steps_Inv; eauto.
  - now rewrite (keeps (f := sec) (g := add_ping x)).
  - now rewrite (keeps (f := cf) (g := add_ping x)).
  - rewrite (keeps (f := nexte) (g := add_ping x)). exact R3.
  - unfold add_ping, insert_ping. rewrite EX.
    assert (PC : pings (clear_ping e s2) = filter (fun p => negb (snd p =? e)) (pings s)) by (rewrite <- B1; now apply pings_cleared).
    destruct (_ || _) eqn:OR; [exists []; rewrite app_nil_r; split; [exact PC|constructor]|]. cbn. rewrite PC.
    eexists; split; [reflexivity|]. repeat constructor; trivial. cbn.
    rewrite (keeps (f := sec) (g := clear_ping e)), (keeps (f := cf) (g := clear_ping e)), B9.
    apply orb_false_elim in OR as [OR _]. apply orb_false_elim in OR as [_ OR]. rewrite (keeps (f := cf) (g := clear_ping e)) in OR.
    apply N.eqb_neq in OR. lia.
  - intros y Y. assert (ES : es (add_ping x s2) y = es s2 y).
    { unfold add_ping, insert_ping. rewrite EX. destruct (_ || _).
      - rewrite es_clear_ping. destruct (N.eqb_spec y e); [contradiction|reflexivity].
      - rewrite es_on_e. cbn [es set_pings]. rewrite !es_clear_ping. destruct (N.eqb_spec y e); [contradiction|reflexivity]. }
    rewrite ES, (B2 y Y). split; [|reflexivity]. apply available_same.
    + now rewrite ES, B2.
    + now rewrite ES, B2.
    + intros c _. now rewrite (keeps (f := cs) (g := add_ping x)), B7.
Qed.
Lemma in_data c d : In c (d_data d) -> In c (conns d).
Proof. unfold conns. destruct (d_ctrl d); cbn; auto. Qed.
Lemma drop_ok now e s s' : handled now e s s' -> 0 < e < nexte s' -> handled now e s (ep_drop e s').
Proof.
  intros [I W C NX (l & P & F) O] R. unfold ep_drop. destruct (ep_held s' e) eqn:HE; [constructor; eauto|].
  assert (I' : Inv (ep_reset None true e s')).
  { pose proof (st_drop_ep true e s' R) as S. unfold ep_drop in S. rewrite HE in S. eapply steps_Inv; eauto. }
  constructor; trivial.
  - now rewrite (keeps (f := sec) (g := ep_reset None true e)).
  - now rewrite (keeps (f := cf) (g := ep_reset None true e)).
  - now rewrite (keeps (f := nexte) (g := ep_reset None true e)).
  - exists (filter (fun p => negb (snd p =? e)) l). split; [|].
    + rewrite pings_ep_reset. destruct (d_timer (es s' e)) eqn:T.
      * rewrite P, filter_app, filter_filter. f_equal. apply filter_ext. intro p. now rewrite andb_diag.
      * rewrite P. f_equal. symmetry. apply filter_true. intros p Q. destruct (N.eqb_spec (snd p) e) as [E|]; [|reflexivity].
        exfalso. assert (X : In e (map snd (pings s'))) by (rewrite P, <- E; apply in_map, in_or_app; now right).
        apply (I_timer s' I) in X. congruence.
    + rewrite Forall_forall in *. intros p Q. apply filter_In in Q. now apply F.
  - intros x X. destruct (O x X) as [O1 O2]. rewrite es_ep_reset. destruct (N.eqb_spec x e); [contradiction|]. split; [|exact O2].
    rewrite <- O1. apply available_same; rewrite ?es_ep_reset; try (destruct (N.eqb_spec x e); [contradiction|reflexivity]).
    intros c IN. rewrite cs_ep_reset.
    assert (B : k_bind (cs s' c) = Some x) by (apply (I_bind s' I); now apply in_data).
    assert (NC : ~ In c (conns (es s' e))) by (intro Z; apply (I_bind s' I) in Z; congruence).
    destruct (memb c (d_data (es s' e))) eqn:M1; [elim NC; apply in_data; now apply memb_in|].
    destruct (d_ctrl (es s' e)) as [y|] eqn:M2; [|reflexivity]. cbn [opt_eqb]. destruct (N.eqb_spec y c) as [->|]; [|reflexivity].
    elim NC. unfold conns. rewrite M2. now left.
Qed.
Definition due (now : N) (s : node) : nat := length (filter (fun p => fst p <=? now) (pings s)).
(** No endpoint whose timer is due is idle. *)
Definition active (now : N) (s : node) : Prop := forall t e, In (t, e) (pings s) -> t <= now -> ~ idle_ep now e s.
Lemma handled_active now e s s' : handled now e s s' -> active now s -> active now s'.
Proof.
  intros [I W C NX (l & P & F) O] A t x IN L. rewrite P in IN. apply in_app_or in IN as [IN|IN].
  - apply filter_In in IN as [IN X]. cbn in X. destruct (N.eqb_spec x e) as [|X']; [discriminate|].
    destruct (O x X') as [O1 O2]. intros (H1 & H2 & H3). apply (A t x IN L). unfold idle_ep. rewrite <- O1, <- O2, <- C. auto.
  - rewrite Forall_forall in F. destruct (F _ IN) as [F' _]. cbn in F'. lia.
Qed.
Lemma handled_due now t e s s' : handled now e s s' -> In (t, e) (pings s) -> t <= now -> (due now s' < due now s)%nat.
Proof.
  intros [I W C NX (l & P & F) O] IN L. unfold due. rewrite P, filter_app, app_length.
  assert (E : filter (fun p => fst p <=? now) l = []).
  { rewrite Forall_forall in F. clear - F. induction l as [|p l IH]; [reflexivity|]. cbn. destruct (F p) as [G _]; [now left|].
    destruct (N.leb_spec (fst p) now); [lia|]. apply IH. intros; apply F; now right. }
  rewrite E. cbn [length]. rewrite Nat.add_0_r. clear - IN L. induction (pings s) as [|p r IH]; [contradiction|].
  cbn [filter]. destruct IN as [->|IN].
  - cbn [snd fst]. rewrite N.eqb_refl. cbn [negb]. destruct (N.leb_spec t now); [|lia]. cbn [length]. apply Nat.lt_succ_r.
    clear. induction r as [|p r IH]; [apply le_n|]. cbn. destruct (snd p =? e); cbn; destruct (fst p <=? now); cbn; lia.
  - specialize (IH IN). destruct (snd p =? e); cbn; destruct (fst p <=? now); cbn; lia.
Qed.
(** The timers that are due come first. *)
Definition split_at (now : N) (s : node) : Prop :=
  exists a b, pings s = a ++ b /\ Forall (fun p => fst p <= now) a /\ Forall (fun p => now < fst p) b.
Lemma split_sorted now s : StronglySorted N.le (map fst (pings s)) -> split_at now s.
Proof.
  unfold split_at. induction (pings s) as [|p l IH]; intro S; [now exists [], []|]. cbn in S. inversion S as [|? ? S' F]; subst.
  destruct (N.le_gt_cases (fst p) now) as [L|L].
  - destruct (IH S') as (a & b & -> & A & B). exists (p :: a), b. split; [reflexivity|]. split; [now constructor|exact B].
  - exists [], (p :: l). split; [reflexivity|]. split; [constructor|]. constructor; [exact L|]. rewrite Forall_forall in *.
    intros q Q. apply (in_map fst) in Q. apply F in Q. lia.
Qed.
Lemma split_handled now e s s' : handled now e s s' -> split_at now s -> split_at now s'.
Proof.
  intros [I W C NX (l & P & F) O] (a & b & E & A & B). rewrite E, filter_app, <- app_assoc in P.
  eexists _, _. split; [exact P|]. rewrite Forall_app, !Forall_forall in *. split; [|split].
  - intros p Q. apply filter_In in Q. now apply A.
  - intros p Q. apply filter_In in Q. now apply B.
  - intros p Q. now apply F.
Qed.
Lemma split_done now s : split_at now s -> match pings s with [] => True | (t, _) :: _ => now < t end -> Forall (fun p => now < fst p) (pings s).
Proof.
  intros (a & b & E & A & B) H. rewrite E in *. destruct a as [|[t e] a]; [exact B|]. cbn in H. inversion A; subst. cbn in *. lia.
Qed.
Lemma drop_done now e s : Forall (fun p => now < fst p) (pings s) -> Forall (fun p => now < fst p) (pings (ep_drop e s)).
Proof.
  intro F. unfold ep_drop. destruct (ep_held s e); [exact F|]. rewrite pings_ep_reset. destruct (d_timer _); [|exact F].
  rewrite Forall_forall in *. intros p P. apply filter_In in P. now apply F.
Qed.
Lemma ping_loop_step now n nx s t e0 l : pings s = (t, e0) :: l -> t <= now -> (forall e, nx = Some e -> e = e0) -> snd (idle_out now e0 s) = false ->
  ping_loop (S n) now nx s =
  let s' := handle now e0 s in
  match pings s' with
  | [] => Some (ep_drop e0 s')
  | (t2, e2) :: r =>
      if now <? t2 then Some (ep_drop e0 s')
      else if negb (t2 =? t) then ping_loop n now None (ep_drop e0 s')
      else if e2 =? e0 then ping_loop n now None (ep_drop e0 (set_pings r s'))
      else ping_loop n now (Some e2) (ep_drop e0 s')
  end.
Proof.
  intros P L NX O. cbn [ping_loop]. rewrite P. destruct (N.ltb_spec now t); [lia|].
  assert (E : match nx with Some e => e | None => e0 end = e0) by (destruct nx; [now apply NX|reflexivity]). rewrite E. unfold handle.
  destruct (idle_out now e0 s) as [s1 out]. cbn [fst snd] in *. subst out. reflexivity.
Qed.
Theorem ping_loop_ends now n : forall nx s, Inv s -> now <= sec s -> active now s -> (due now s < n)%nat ->
  (forall e, nx = Some e -> exists t r, pings s = (t, e) :: r /\ t <= now) ->
  exists s', ping_loop n now nx s = Some s' /\ (split_at now s -> Forall (fun p => now < fst p) (pings s')).
Proof.
  induction n as [|n IH]; intros nx s I W A D NX; [lia|].
  destruct (pings s) as [|[t e0] l] eqn:P.
  { destruct nx as [e|]; [destruct (NX e eq_refl) as (? & ? & ? & ?); discriminate|]. cbn [ping_loop]. rewrite P.
    exists s. split; [reflexivity|]. intros _. rewrite P. constructor. }
  destruct (N.ltb_spec now t) as [L|L].
  { destruct nx as [e|]; [destruct (NX e eq_refl) as (? & ? & E & ?); injection E as -> -> ->; lia|]. cbn [ping_loop]. rewrite P.
    apply N.ltb_lt in L. rewrite L. exists s. split; [reflexivity|]. intro SP. apply split_done; [exact SP|]. rewrite P. now apply N.ltb_lt. }
  assert (IN : In (t, e0) (pings s)) by (rewrite P; now left).
  rewrite (ping_loop_step now n nx s t e0 l P L).
  2: { intros e E. destruct (NX e E) as (? & ? & X & ?). now injection X. }
  2: { destruct (snd (idle_out now e0 s)) eqn:O; [|reflexivity]. exfalso. apply (idle_out_true now e0 s W) in O as [_ O]. now apply (A t e0). }
  pose proof (handle_ok now e0 s I W (timer_range s t e0 I IN)) as H. cbv zeta.
  assert (R : 0 < e0 < nexte (handle now e0 s)).
  { pose proof (H_next _ _ _ _ H). pose proof (timer_range s t e0 I IN). lia. }
  set (s1 := handle now e0 s) in *. clearbody s1.
  pose proof (drop_ok now e0 s s1 H R) as H2.
  pose proof (handled_active _ _ _ _ H2 A) as A2. pose proof (handled_due _ _ _ _ _ H2 IN L) as D2.
  pose proof (H_sec _ _ _ _ H2) as W2. pose proof (H_inv _ _ _ _ H2) as I2.
  destruct (pings s1) as [|[t2 e2] r] eqn:P1.
  - eexists. split; [reflexivity|]. intro SP. apply drop_done. rewrite P1. constructor.
  - destruct (N.ltb_spec now t2) as [L2|L2].
    { eexists. split; [reflexivity|]. intro SP. apply drop_done. apply split_done; [eapply split_handled; eauto|]. now rewrite P1. }
    assert (NE : e2 <> e0).
    { destruct H as [_ _ _ _ (l' & PP & F) _]. rewrite PP in P1. assert (X : In (t2, e2) (filter (fun p => negb (snd p =? e0)) (pings s) ++ l')) by (rewrite P1; now left).
      apply in_app_or in X as [X|X].
      - apply filter_In in X as [_ X]. cbn in X. intros ->. now rewrite N.eqb_refl in X.
      - rewrite Forall_forall in F. apply F in X as [X _]. cbn in X. lia. }
    destruct (negb (t2 =? t)).
    + destruct (IH None (ep_drop e0 s1)) as (s' & E & Q); trivial; try lia; [discriminate|].
      exists s'. split; [exact E|]. intro SP. apply Q. eapply split_handled; eauto.
    + destruct (N.eqb_spec e2 e0); [contradiction|].
      destruct (IH (Some e2) (ep_drop e0 s1)) as (s' & E & Q); trivial; try lia.
      * intros e X. injection X as <-. unfold ep_drop. destruct (ep_held s1 e0); [eauto|]. rewrite pings_ep_reset, P1.
        destruct (d_timer _); [|eauto]. cbn [filter snd]. destruct (N.eqb_spec e2 e0); [contradiction|]. cbn. eauto.
      * exists s'. split; [exact E|]. intro SP. apply Q. eapply split_handled; eauto.
Qed.
