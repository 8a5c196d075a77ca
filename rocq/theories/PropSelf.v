(** Properties of messages a node sends to itself. *)
From Verif Require Import Base SelfMsg SelfSpec SelfProof.
Local Open Scope N_scope.
Ltac Zify.zify_post_hook ::= idtac.

Ltac logs := unfold sent, got, responses, cmds, handled, calls, answers in *; cbn [slog say with_st with_q with_f with_run call enter] in *;
  rewrite ?flat_since by discriminate; cbn [app]; rewrite ?app_nil_r.
Lemma plain_history loop l : forall s, Forall (fun a => a <> AReset) l -> history loop s -> forall s', srun loop l s = Some s' -> history loop s'.
Proof.
  induction l as [|a l IH]; intros s F H s' E; cbn [srun] in E; [injection E as <-; exact H|]. inversion F as [|a' l' NR F']; subst.
  destruct (sstep loop a s) as [t1|] eqn:ST; [|discriminate]. apply (IH t1); trivial. eapply h_step; [exact H| |exact ST].
  destruct a; try exact Logic.I. now elim NR.
Qed.

(** ** C33: exactly once, in order, never nested *)
(** In every history of calls, from whatever callbacks, in which [reset] is not called
    inside a callback (the full statement has no such condition, see below): the data received from self since the last reset are the first
    ones sent, each once and in order; and every one that asked for a response has got
    one, except possibly the one being received. *)
Theorem C33_once_in_order_partial loop s : history loop s -> exists n, (n <= length (sent (slog s)))%nat /\
  got (slog s) = map fst (firstn n (sent (slog s))) /\
  exists m, responses (slog s) = wanted (firstn m (sent (slog s))) /\ (m = n \/ n = S m).
Proof.
  intro H. destruct (history_inv loop s H) as (us & b & I). destruct (V_data _ _ _ I) as (dn & D1 & D2 & D3).
  exists (length dn). rewrite D1. split; [rewrite app_length; lia|].
  assert (F : firstn (length dn) (dn ++ reqs (dpend (bpc b) (dq s))) = dn) by (rewrite firstn_app, Nat.sub_diag, firstn_all; apply app_nil_r).
  rewrite F. split; [exact D2|].
  assert (X : responses (slog s) = wanted dn \/ exists d c x, dn = d ++ [(c, x)] /\ responses (slog s) = wanted d).
  { destruct (bpc b) as [[]|]; auto. destruct D3 as (d & -> & D3). right. eauto. }
  destruct X as [X|(d & c & x & -> & X)].
  - exists (length dn). rewrite F. auto.
  - exists (length d). rewrite <- app_assoc, firstn_app, Nat.sub_diag, firstn_all, app_nil_r. split; [exact X|]. right. rewrite app_length. cbn. lia.
Qed.
(** The same for commands; each is answered once. *)
Theorem C33_commands_partial loop s : history loop s ->
  (exists n, handled (slog s) = firstn n (cmds (slog s))) /\
  (calls (slog s) = answers (slog s) \/ calls (slog s) = S (answers (slog s))).
Proof.
  intro H. destruct (history_inv loop s H) as (us & b & I). split.
  - exists (length (handled (slog s))). rewrite (V_cmd _ _ _ I), firstn_app, Nat.sub_diag, firstn_all. symmetry. apply app_nil_r.
  - rewrite (V_ans _ _ _ I). destruct (bpc b) as [[]|]; lia.
Qed.
(** When a message to self is handed to a callback, no callback is running. *)
Theorem C33_never_nested_partial loop s l1 o l2 : history loop s -> slog s = l1 ++ o :: l2 -> to_self o = true -> running l2 = 0%nat.
Proof.
  intros H L T. destruct (history_inv loop s H) as (us & b & I). pose proof (V_calm _ _ _ I) as C. rewrite L in C. clear L.
  induction l1 as [|x l1 IH]; cbn [app calm] in C; [|now apply IH]. now apply C.
Qed.
(** The queues are never popped when they are empty. *)
Theorem C33_defined_partial loop s : history loop s -> ub s = false.
Proof. intro H. destruct (history_inv loop s H) as (us & b & I). apply I. Qed.

(** ** C33: everything is delivered *)
(** While the node runs and callbacks only return. *)
Definition quiet_act (a : act) : Prop := match a with ATick _ | ALeave => True | _ => False end.
Definition quiet_run (loop : Z) (s s' : snode) : Prop := exists l, Forall quiet_act l /\ srun loop l s = Some s'.
Lemma quiet_refl loop s : quiet_run loop s s.
Proof. exists []. split; [constructor|reflexivity]. Qed.
Lemma srun_app loop l m s : srun loop (l ++ m) s = match srun loop l s with Some s' => srun loop m s' | None => None end.
Proof. revert s. induction l as [|a l IH]; intro s; [reflexivity|]. cbn [app srun]. destruct (sstep loop a s); [apply IH|reflexivity]. Qed.
Lemma quiet_trans loop s s1 s2 : quiet_run loop s s1 -> quiet_run loop s1 s2 -> quiet_run loop s s2.
Proof.
  intros (l & F & E) (m & G & E2). exists (l ++ m). split; [now apply Forall_app|]. now rewrite srun_app, E.
Qed.
Lemma quiet_step loop a s s' : quiet_act a -> sstep loop a s = Some s' -> quiet_run loop s s'.
Proof. intros Q E. exists [a]. split; [now constructor|]. cbn. now rewrite E. Qed.
Definition weight (l : list citem) : Z := fold_right (fun i n => (n + match i with CReq _ => 2 | CRsp _ => 1 end)%Z) 0%Z l.
Lemma weight_app l m : weight (l ++ m) = (weight l + weight m)%Z.
Proof. unfold weight. induction l as [|i l IH]; [reflexivity|]. cbn [app fold_right]. rewrite IH. lia. Qed.
Lemma weight_pos l : (Z.of_nat (length l) <= weight l)%Z.
Proof. unfold weight. induction l as [|i l IH]; [cbn; lia|]. cbn [length fold_right]. destruct i; lia. Qed.
(** What stays the same while messages are delivered. *)
Record tame (s s' : snode) : Prop := {
  M_run : run_ s' = run_ s; M_cb : f_cb s' = f_cb s; M_self : f_self s' = f_self s; M_rst : f_rst s' = f_rst s; M_ub : ub s' = ub s;
  M_sent : sent (slog s') = sent (slog s) }.
Lemma tame_refl s : tame s s.
Proof. now constructor. Qed.
Lemma tame_trans a b c : tame a b -> tame b c -> tame a c.
Proof. intros [] []. constructor; congruence. Qed.
Lemma data_loop loop r k d : forall n s, stack s = FDisp (PData n) r :: k -> dq s = d -> (Z.of_nat (length d) <= n)%Z -> ub s = false -> f_cb s = false ->
  exists s' r', quiet_run loop s s' /\ tame s s' /\ stack s' = FDisp (PCmd (n - Z.of_nat (length d) - 1)) r' :: k /\ dq s' = [] /\ cq s' = cq s.
Proof.
  revert r. induction d as [|i d IH]; intros r n s ST D L U C.
  - exists (with_st (FDisp (PCmd (n - 1)) r :: k) s), r. split; [|split; [now constructor|]].
    + apply (quiet_step loop (ATick [])); [exact Logic.I|]. unfold sstep. rewrite U, ST. cbn [disp]. now rewrite D.
    + cbn. repeat split; trivial. now replace (n - 0 - 1)%Z with (n - 1)%Z by lia.
  - cbn [length] in L. assert (P : (0 <? n)%Z = true) by (apply Z.ltb_lt; lia).
    assert (STEP : exists s1 r1, quiet_run loop s s1 /\ tame s s1 /\ stack s1 = FDisp (PData (n - 1)) r1 :: k /\ dq s1 = d /\ cq s1 = cq s).
    { destruct i as [c b|c].
      - set (s1 := call (ORecv c) (with_st (FDisp (PAfter (n - 1) c b) r :: k) s)).
        set (s2 := say OLeave (with_st (FDisp (PAfter (n - 1) c b) r :: k) (with_f (f_self s1) false (f_rst s1) s1))).
        set (s3 := with_st (FDisp (PPop (n - 1)) (r + 1) :: k) s2).
        assert (Q2 : quiet_run loop s s2).
        { eapply quiet_trans; [apply (quiet_step loop (ATick [])) with (s' := s1); [exact Logic.I|]|apply (quiet_step loop ALeave); [exact Logic.I|]].
          - unfold sstep. rewrite U, ST. cbn [disp]. now rewrite D, P.
          - unfold sstep. subst s1. cbn [ub call with_st with_f say stack f_cb]. rewrite U, C. cbn [negb]. reflexivity. }
        assert (T2 : tame s s2).
        { subst s2 s1. constructor; cbn [run_ f_cb f_self f_rst ub slog say with_st with_f call]; trivial; try congruence. logs. reflexivity. }
        assert (Q3 : exists s4, quiet_run loop s2 s4 /\ tame s s4 /\ stack s4 = FDisp (PPop (n - 1)) (r + 1) :: k /\ dq s4 = dq s /\ cq s4 = cq s).
        { destruct b.
          - set (s4 := call (ORsp c) s3). exists (say OLeave (with_st (FDisp (PPop (n - 1)) (r + 1) :: k) (with_f (f_self s4) false (f_rst s4) s4))).
            split; [|split].
            + eapply quiet_trans; [apply (quiet_step loop (ATick [])) with (s' := s4); [exact Logic.I|]|apply (quiet_step loop ALeave); [exact Logic.I|]].
              * unfold sstep. subst s2 s1. cbn [ub call with_st with_f say stack f_cb]. rewrite U. reflexivity.
              * unfold sstep. subst s4 s3 s2 s1. cbn [ub call with_st with_f say stack f_cb]. rewrite U. reflexivity.
            + eapply tame_trans; [exact T2|]. subst s4 s3. constructor; cbn [run_ f_cb f_self f_rst ub slog say with_st with_f call]; trivial; try congruence.
              logs. reflexivity.
            + auto.
          - exists s3. split; [|split].
            + apply (quiet_step loop (ATick [])); [exact Logic.I|]. unfold sstep. subst s3 s2 s1. cbn [ub call with_st with_f say stack f_cb]. rewrite U. reflexivity.
            + eapply tame_trans; [exact T2|]. now constructor.
            + auto. }
        destruct Q3 as (s4 & Q4 & T4 & S4 & D4 & C4). exists (with_st (FDisp (PData (n - 1)) (r + 1) :: k) (with_q d (cq s4) s4)), (r + 1).
        split; [|split; [eapply tame_trans; [exact T4|now constructor]|cbn; auto]].
        eapply quiet_trans; [exact Q2|]. eapply quiet_trans; [exact Q4|]. apply (quiet_step loop (ATick [])); [exact Logic.I|].
        unfold sstep. rewrite (M_ub _ _ T4), U, S4. cbn [disp]. now rewrite D4, D.
      - exists (with_st (FDisp (PData (n - 1)) r :: k) (with_q d (cq s) s)), r. split; [|split; [now constructor|cbn; auto]].
        set (s1 := with_st (FDisp (PPop (n - 1)) r :: k) s).
        eapply quiet_trans; [apply (quiet_step loop (ATick [])) with (s' := s1); [exact Logic.I|]|apply (quiet_step loop (ATick [])); [exact Logic.I|]].
        + unfold sstep. rewrite U, ST. cbn [disp]. now rewrite D, P.
        + unfold sstep. subst s1. cbn [ub with_st stack]. rewrite U. cbn [disp dq with_st]. now rewrite D. }
    destruct STEP as (s1 & r1 & Q & T & S1 & D1 & C1).
    destruct (IH r1 (n - 1)%Z s1 S1 D1) as (s2 & r2 & Q2 & T2 & S2 & D2 & C2); [lia|rewrite (M_ub _ _ T); exact U|rewrite (M_cb _ _ T); exact C|].
    exists s2, r2. split; [eapply quiet_trans; eauto|]. split; [eapply tame_trans; eauto|]. split; [|split; [exact D2|congruence]].
    rewrite S2. cbn [length]. now replace (n - 1 - Z.of_nat (length d) - 1)%Z with (n - Z.of_nat (S (length d)) - 1)%Z by lia.
Qed.
Lemma cmd_loop loop k w : forall r n s, stack s = FDisp (PCmd n) r :: k -> (weight (cq s) <= Z.of_nat w)%Z -> (Z.of_nat w < n)%Z -> ub s = false -> f_cb s = false -> f_self s = true ->
  run_ s = true -> exists s' r', quiet_run loop s s' /\ run_ s' = true /\ sent (slog s') = sent (slog s) /\ f_rst s' = f_rst s /\ stack s' = back r' k /\ dq s' = dq s /\ cq s' = [].
Proof.
  induction w as [w IH] using lt_wf_ind; intros r n s ST W L U C FS RU. destruct (cq s) as [|i d] eqn:D.
  - exists (with_st (back r k) (with_f false (f_cb s) (f_rst s) s)), r. split; [|cbn [run_ slog f_rst stack dq cq with_st with_f]; auto 10].
    apply (quiet_step loop (ATick [])); [exact Logic.I|]. unfold sstep. rewrite U, ST. cbn [disp]. now rewrite D.
  - assert (P : (0 <? n)%Z = true) by (apply Z.ltb_lt; lia). pose proof (weight_pos d) as WD. cbn [weight fold_right] in W. change (fold_right _ _ d) with (weight d) in W.
    destruct i as [c|c].
    + set (s1 := call (OCmd c) (with_st (FDisp (PReply (n - 1)) r :: k) s)).
      set (s2 := say OLeave (with_st (FDisp (PReply (n - 1)) r :: k) (with_f (f_self s1) false (f_rst s1) s1))).
      set (s3 := say (OReplied []) (with_q (dq s) (cq s ++ [CRsp []]) (with_st (FDisp (PCPop (n - 1)) r :: k) s2))).
      set (s4 := with_st (FDisp (PCmd (n - 1)) (r + 1) :: k) (with_q (dq s) (d ++ [CRsp []]) s3)).
      assert (Q : quiet_run loop s s4).
      { eapply quiet_trans; [apply (quiet_step loop (ATick [])) with (s' := s1); [exact Logic.I|]|].
        { unfold sstep. rewrite U, ST. cbn [disp]. now rewrite D, P. }
        eapply quiet_trans; [apply (quiet_step loop ALeave) with (s' := s2); [exact Logic.I|]|].
        { unfold sstep. subst s1. cbn [ub call with_st with_f say stack f_cb]. rewrite U, C. reflexivity. }
        eapply quiet_trans; [apply (quiet_step loop (ATick [])) with (s' := s3); [exact Logic.I|]|].
        { unfold sstep. subst s2 s1. cbn [ub call with_st with_f say stack f_cb]. rewrite U. unfold disp, send_cmd. cbn [run_ with_st say call with_f]. rewrite RU.
          unfold enter. cbn [f_self f_cb say with_q with_st call with_f]. destruct (f_self s || false) eqn:Z; [reflexivity|rewrite FS in Z; discriminate]. }
        apply (quiet_step loop (ATick [])); [exact Logic.I|]. unfold sstep. subst s3 s2 s1. cbn [ub call with_st with_f with_q say stack f_cb]. rewrite U.
        cbn [disp cq say with_q]. rewrite D. reflexivity. }
      destruct (IH (w - 1)%nat ltac:(lia) (r + 1) (n - 1)%Z s4) as (s5 & r5 & Q5 & R5 & T5 & F5 & S5 & D5 & C5); subst s4 s3 s2 s1; cbn [ub call with_st with_f with_q say stack f_cb cq f_self run_]; trivial.
      * rewrite weight_app. cbn [weight fold_right]. lia.
      * lia.
      * exists s5, r5. split; [eapply quiet_trans; eauto|]. split; [exact R5|]. split; [rewrite T5; logs; reflexivity|]. auto 10.
    + set (s1 := call (OCmdRsp c) (with_st (FDisp (PCPop (n - 1)) r :: k) s)).
      set (s2 := say OLeave (with_st (FDisp (PCPop (n - 1)) r :: k) (with_f (f_self s1) false (f_rst s1) s1))).
      set (s4 := with_st (FDisp (PCmd (n - 1)) (r + 1) :: k) (with_q (dq s) d s2)).
      assert (Q : quiet_run loop s s4).
      { eapply quiet_trans; [apply (quiet_step loop (ATick [])) with (s' := s1); [exact Logic.I|]|].
        { unfold sstep. rewrite U, ST. cbn [disp]. now rewrite D, P. }
        eapply quiet_trans; [apply (quiet_step loop ALeave) with (s' := s2); [exact Logic.I|]|].
        { unfold sstep. subst s1. cbn [ub call with_st with_f say stack f_cb]. rewrite U, C. reflexivity. }
        apply (quiet_step loop (ATick [])); [exact Logic.I|]. unfold sstep. subst s2 s1. cbn [ub call with_st with_f with_q say stack f_cb]. rewrite U.
        cbn [disp cq say with_q with_st call with_f]. rewrite D. reflexivity. }
      destruct (IH (w - 1)%nat ltac:(lia) (r + 1) (n - 1)%Z s4) as (s5 & r5 & Q5 & R5 & T5 & F5 & S5 & D5 & C5); subst s4 s2 s1; cbn [ub call with_st with_f with_q say stack f_cb cq f_self run_]; trivial.
      * lia.
      * lia.
      * exists s5, r5. split; [eapply quiet_trans; eauto|]. split; [exact R5|]. split; [rewrite T5; logs; reflexivity|]. auto 10.
Qed.
(** Outside all calls, one [proc] (or [poll], or one more message to self) delivers
    everything that waits, if that is less than [loop_times] and callbacks only return:
    all data sent so far have then been received and all commands handled. *)
Theorem C33_delivered_partial loop s : history loop s -> stack s = [] -> run_ s = true ->
  (Z.of_nat (length (dq s)) + weight (cq s) + 1 < loop0 loop)%Z ->
  exists l s', Forall quiet_act l /\ srun loop (ADispatch :: l) s = Some s' /\ stack s' = [] /\
    got (slog s') = map fst (sent (slog s)) /\ cmds (slog s') = handled (slog s').
Proof.
  intros H ST RU L. destruct (history_inv loop s H) as (us & b & I).
  assert (E : us = [] /\ b = []). { pose proof (V_stack _ _ _ I) as P. rewrite ST in P. symmetry in P. apply app_eq_nil in P as [P1 P2]. now destruct us. } destruct E as [-> ->].
  set (s1 := with_st (FDisp (PData (loop0 loop)) 0 :: stack s) (with_f true (f_cb s) (f_rst s) s)).
  assert (S1 : sstep loop ADispatch s = Some s1).
  { assert (B := V_base _ _ _ I). assert (X : f_self s || f_cb s = false) by (rewrite (V_cb _ _ _ I); inversion B; reflexivity).
    assert (US : user s = true) by (unfold user; now rewrite ST). unfold sstep. rewrite (V_ub _ _ _ I), US. unfold enter. now rewrite X. }
  pose proof (weight_pos (cq s)) as WP.
  destruct (data_loop loop 0 [] (dq s) (loop0 loop) s1) as (s2 & r2 & Q2 & T2 & S2 & D2 & C2); [subst s1; now rewrite ST|reflexivity|lia|exact (V_ub _ _ _ I)|exact (V_cb _ _ _ I)|].
  destruct T2 as [T1 T2 T3 T4 T5 T6]. subst s1. cbn [run_ f_cb f_self f_rst ub slog with_st with_f cq] in *.
  destruct (cmd_loop loop [] (Z.to_nat (weight (cq s))) r2 (loop0 loop - Z.of_nat (length (dq s)) - 1)%Z s2) as (s3 & r3 & Q3 & R3 & E3 & F3 & S3 & D3 & C3); trivial;
    try (rewrite C2); try lia; [rewrite T5; exact (V_ub _ _ _ I)|rewrite T2; exact (V_cb _ _ _ I)|congruence|].
  destruct (quiet_trans _ _ _ _ Q2 Q3) as (l & F & E). exists l, s3. split; [exact F|]. cbn [srun]. rewrite S1. split; [exact E|].
  split; [exact S3|].
  assert (H1 : history loop s3).
  { clear - H S1 F E. set (s1 := with_st _ _) in *. assert (HH : history loop s1) by (eapply h_step; [exact H| |exact S1]; exact Logic.I). clearbody s1. clear H S1.
    revert s1 HH E. induction F as [|a l QA F IH]; intros s1 HH E; cbn [srun] in E; [injection E as <-; exact HH|].
    destruct (sstep loop a s1) as [t|] eqn:ST; [|discriminate]. apply (IH t); [|exact E]. eapply h_step; [exact HH| |exact ST]. destruct a; try contradiction; exact Logic.I. }
  destruct (history_inv loop s3 H1) as (us & b & I3).
  assert (X : us = [] /\ b = []). { pose proof (V_stack _ _ _ I3) as P. rewrite S3 in P. symmetry in P. apply app_eq_nil in P as [P1 P2]. now destruct us. } destruct X as [-> ->].
  destruct (V_data _ _ _ I3) as (dn & X1 & X2 & _). pose proof (V_cmd _ _ _ I3) as X4. cbn [bpc dpend cpend] in *. rewrite D3, D2 in X1. rewrite C3 in X4.
  cbn [reqs flat_map map] in X1, X4. rewrite app_nil_r in X1, X4. split; [|exact X4]. congruence.
Qed.
(** ** C33: where it fails *)
(** With [loop_times = 1] no command to self is ever handled, whatever happens. *)
Definition late_pc (f : frame) : Prop :=
  match f with
  | FDisp (PData n) _ => (n <= 1)%Z
  | FDisp (PAfter n _ _) _ | FDisp (PPop n) _ | FDisp (PCmd n) _ => (n <= 0)%Z
  | FDisp _ _ => False
  | _ => True
  end.
Lemma late_enter s : Forall late_pc (stack s) -> Forall late_pc (stack (enter 1 s)).
Proof. intro F. unfold enter. destruct (_ || _); [exact F|]. cbn. constructor; [cbn; lia|exact F]. Qed.
Lemma handled_say o l : match o with OCmd _ | OCmdRsp _ | OReset => False | _ => True end -> handled (o :: l) = handled l.
Proof. intro N. unfold handled. rewrite flat_since by (intros ->; exact N). destruct o; try contradiction; apply app_nil_r. Qed.
Lemma enter_log loop s : slog (enter loop s) = slog s.
Proof. unfold enter. now destruct (_ || _). Qed.
Lemma late_step a s s' : Forall late_pc (stack s) -> handled (slog s) = [] -> sstep 1 a s = Some s' -> Forall late_pc (stack s') /\ handled (slog s') = [].
Proof.
  intros F H E. unfold sstep in E. destruct (ub s); [discriminate|]. destruct a as [c rsp|c|c| | | | | |x].
  - destruct (user s); [|discriminate]. injection E as <-. unfold send_self. destruct (run_ s); [|auto]. split; [now apply late_enter|]. rewrite enter_log. cbn [slog say with_q]. now rewrite handled_say.
  - destruct (user s); [|discriminate]. injection E as <-. unfold send_self. destruct (run_ s); [|auto]. split; [now apply late_enter|]. rewrite enter_log. cbn [slog say with_q]. now rewrite handled_say.
  - destruct (user s); [|discriminate]. injection E as <-. unfold send_cmd. destruct (run_ s); [|auto]. split; [now apply late_enter|]. rewrite enter_log. cbn [slog say with_q]. now rewrite handled_say.
  - destruct (user s); [|discriminate]. injection E as <-. split; [now apply late_enter|]. now rewrite enter_log.
  - assert (X : s' = call OFire s) by (destruct (stack s) as [|[h|p r|[]] k]; congruence). subst s'. cbn [stack slog call say with_st with_f]. split; [now constructor|now rewrite handled_say].
  - destruct (stack s) as [|[h|p r|ph] k]; try discriminate. injection E as <-. inversion F; subst. split; [assumption|]. cbn [slog say with_st]. rewrite handled_say by exact Logic.I. now destruct h.
  - destruct (user s); [|discriminate]. injection E as <-. destruct (f_rst s); [auto|]. split; [now constructor|exact H].
  - destruct (_ && _); [|discriminate]. injection E as <-. auto.
  - destruct (stack s) as [|[h|p r|ph] k] eqn:S; try discriminate.
    + injection E as <-. inversion F as [|f k' FP FK]; subst. destruct p as [n|n c b|n|n|n|n]; cbn [disp late_pc] in *; try contradiction.
      * destruct (dq s) as [|[c b|c] d]; [|destruct (Z.ltb_spec 0 n)..]; cbn [stack slog call say with_st with_f]; rewrite ?handled_say by exact Logic.I;
          (split; [repeat constructor; trivial; cbn; lia|exact H]).
      * destruct b; cbn [stack slog call say with_st with_f]; rewrite ?handled_say by exact Logic.I; (split; [repeat constructor; trivial; cbn; lia|exact H]).
      * destruct (dq s) as [|i d]; cbn [stack slog call say with_st with_f with_q broken].
        -- rewrite S. auto.
        -- split; [constructor; [cbn; lia|exact FK]|exact H].
      * assert (RET : Forall late_pc (back r k)) by (unfold back; destruct k as [|[h|p rr|[]] k]; trivial; inversion FK; subst; constructor; trivial).
        destruct (cq s) as [|i d]; [auto|]. destruct (Z.ltb_spec 0 n); [lia|]. auto.
    + inversion F as [|f k' FP FK]; subst. destruct ph; [|destruct (_ || _)|]; injection E as <-; cbn [stack slog say with_st with_run with_f with_q].
      * split; [now constructor|exact H].
      * split; [now constructor|exact H].
      * split; [apply late_enter; now rewrite S|now rewrite enter_log].
      * split; [exact FK|reflexivity].
Qed.
Theorem C33_commands_starve_refuted : exists loop, (0 < loop)%Z /\ forall l s, srun loop l fresh = Some s -> handled (slog s) = [].
Proof.
  exists 1%Z. split; [lia|]. intros l s E. enough (X : Forall late_pc (stack s) /\ handled (slog s) = []) by apply X.
  assert (X0 : Forall late_pc (stack fresh) /\ handled (slog fresh) = []) by (split; [constructor|reflexivity]).
  revert E X0. generalize fresh as t. induction l as [|a l IH]; intros t E [F H]; cbn [srun] in E; [injection E as <-; auto|].
  destruct (sstep 1 a t) as [t'|] eqn:ST; [|discriminate]. apply (IH t' E). eapply late_step; eauto.
Qed.
Definition t := ATick [].
(** [reset] inside the callback that receives a message to self: the queue is emptied, and
    then its first element, which does not exist, is removed. *)
Theorem C33_reset_in_callback_refuted : exists l s, srun 128 l fresh = Some s /\ ub s = true.
Proof.
  exists [AInit; ASend [7] false; t; AReset; t; t; t; ALeave; t; t]. eexists. split; [vm_compute; reflexivity|reflexivity].
Qed.
(** Once the node is restarted inside that callback, messages to self are delivered
    inside the running callback. *)
Theorem C33_restart_in_callback_refuted : exists l s l1 o l2, srun 128 l fresh = Some s /\ slog s = l1 ++ o :: l2 /\
  to_self o = true /\ running l2 = 1%nat.
Proof.
  exists [AInit; ASend [7] false; t; AReset; t; t; t; AInit; ASend [8] false; t]. eexists. exists [], (ORecv [8]). eexists.
  split; [vm_compute; reflexivity|]. split; [reflexivity|]. split; reflexivity.
Qed.
(** What callbacks send to self while the node is being reset is accepted and lost. *)
Theorem C33_lost_in_reset_refuted : exists s, history 128 s /\ In (OSent [7] false) (slog s) /\ stack s = [] /\
  ~ In (ORecv [7]) (slog s) /\ dq s = [].
Proof.
  assert (H1 : history 128 (with_run true fresh)) by (eapply h_step; [apply h_fresh| |exact (eq_refl : sstep 128 AInit fresh = Some (with_run true fresh))]; exact Logic.I).
  destruct (sstep 128 AReset (with_run true fresh)) as [s2|] eqn:E2; [|discriminate].
  assert (H2 : history 128 s2) by (eapply h_step; [exact H1| |exact E2]; reflexivity). vm_compute in E2. injection E2 as E2.
  destruct (srun 128 [t; t; t; t; AFire; ASend [7] false; ALeave; t] s2) as [s3|] eqn:E3; [|subst s2; vm_compute in E3; discriminate].
  assert (H3 : history 128 s3) by (eapply plain_history; [|exact H2|exact E3]; repeat constructor; discriminate).
  subst s2. vm_compute in E3. injection E3 as E3. exists s3. split; [exact H3|]. subst s3. cbn. repeat split; [tauto|]. intuition discriminate.
Qed.
(** A data response for the node itself (a message it sent came back to it and cannot be
    sent on) reaches no callback. *)
Theorem C33_own_response_dropped_refuted : exists l s, srun 128 l fresh = Some s /\ In (OAnswer [7]) (slog s) /\ stack s = [] /\ dq s = [] /\
  forall o, In o (slog s) -> to_self o = false.
Proof.
  exists [AInit; ASendRsp [7]; t; t; t; t]. eexists. split; [vm_compute; reflexivity|]. split; [cbn; tauto|]. repeat split.
  intros o [<-|[]]. reflexivity.
Qed.
(** Examples: a callback sends to its own node from inside a callback inside a callback. *)
Definition nest := [AInit; ASend [1] true; t; ASend [2] false; AFire; ACmd [3]; ALeave; ALeave; t; ALeave; t; t].
Example C33_case : exists s, history 128 s /\ sent (slog s) = [([1], true); ([2], false)] /\ got (slog s) = [[1]; [2]] /\
  responses (slog s) = [[1]] /\ cmds (slog s) = [inl [3]] /\ handled (slog s) = [].
Proof.
  destruct (srun 128 nest fresh) as [s|] eqn:E; [|vm_compute in E; discriminate]. exists s.
  split; [eapply plain_history; [|apply h_fresh|exact E]; repeat constructor; discriminate|]. vm_compute in E. injection E as <-. repeat split.
Qed.
Example C33_delivered_case : exists s, history 128 s /\ stack s = [] /\ run_ s = true /\ dq s = [IReq [7] true] /\ cq s = [CReq [8]].
Proof.
  destruct (srun 128 [AInit; AFire; ASend [7] true; ACmd [8]; ALeave] fresh) as [s|] eqn:E; [|vm_compute in E; discriminate]. exists s.
  split; [eapply plain_history; [|apply h_fresh|exact E]; repeat constructor; discriminate|]. vm_compute in E. injection E as <-. repeat split.
Qed.
Print Assumptions C33_once_in_order_partial.
Print Assumptions C33_commands_partial.
Print Assumptions C33_never_nested_partial.
Print Assumptions C33_defined_partial.
Print Assumptions C33_delivered_partial.
Print Assumptions C33_commands_starve_refuted.
Print Assumptions C33_reset_in_callback_refuted.
Print Assumptions C33_restart_in_callback_refuted.
Print Assumptions C33_lost_in_reset_refuted.
Print Assumptions C33_own_response_dropped_refuted.
