(** C14, C15, C52, C53, C54: the sending side of the stream channel, and both sides together. *)
From Verif Require Import Base BufferSpec Buffer Vint VintSpec VintProof Mem MemSpec MemProof IoSpec IoRecv IoRecvSpec IoRecvProof PropIoRecv IoWrite IoWriteSpec IoWriteProof.
Local Open Scope N_scope.
Ltac Zify.zify_post_hook ::= idtac.

Ltac legal :=
  cbn [wlegal]; repeat (split; [cbn [allowed]; repeat first [exact I|reflexivity|discriminate|split|constructor; fail|apply Forall_cons|apply Forall_nil]|
    match goal with |- context [w_step ?l ?h ?s ?e] => let r := eval vm_compute in (w_step l h s e) in change (w_step l h s e) with r end; cbv beta iota; cbn [wlegal]]); exact I.

Section P.
Variables (limit max : N) (hash : bytes -> N).
Hypothesis Hh : forall p, hash p < 2 ^ 32.
Hypothesis Hmax : max <= 2 ^ 62.

Lemma run_facts es s t : wlegal limit hash (w_init max) es -> w_run limit hash (w_init max) es = Ok (s, t) ->
  exists gs fly can, Q max hash (w_q s) gs /\ accepted t = reported t ++ concat gs /\ reported t = succeeded t ++ can /\ wire t = frames hash (succeeded t ++ fly) /\ Forall short (accepted t) /\
    (w_writing s = true -> can = [] /\ (exists gs', gs = fly :: gs') /\ in_flight t (frames hash fly)) /\ (w_writing s = false -> fly = []) /\
    (can <> [] -> gs = [] /\ In OClose t) /\ (Forall writes_start es -> w_writing s = false -> gs = []) /\
    (In OClosed t -> w_writing s = false) /\ (Forall writes_start es -> Forall gentle es -> In OClose t -> w_writing s = false) /\ (w_closing s = true <-> In OClose t).
Proof.
  intros L E. pose proof (run_inv limit max hash Hh Hmax es _ [] (init_inv max hash Hmax) L) as R. rewrite E in R. cbn [app] in R. destruct R as (I & Fw & Gs).
  destruct I as ((gs & fly & can & H1 & H2 & H3 & H4 & H5 & H6 & H7 & H8) & (Fa & Fb & Fc) & Cl & Cd). rewrite app_nil_r in *.
  exists gs, fly, can. split; trivial. split; trivial. split; trivial. split; trivial. split; trivial. split; trivial. split; trivial. split; [|split; [|split; [|split]]].
  - intros X. destruct (H8 X) as [Y Z]. split; trivial. now apply Cl.
  - intros X Y. apply (Q_nil max hash (w_q s)); trivial. apply Fw; trivial. intros _. reflexivity.
  - intros X. apply Cd in X. apply Fb in X. apply X.
  - intros X Y Z. apply Cl in Z. apply (Gs X Y); trivial; [intros _; reflexivity|]. intros F. discriminate.
  - exact Cl.
Qed.
End P.

(** C14: at every point of every schedule, the bytes handed to the transport are exactly the
    frames of the first messages taken, in order; whenever no write is in progress and the
    connection is not closing, all of them (no write having failed to start). *)
Theorem C14_send_order : forall limit max hash es s t,
  (forall p, hash p < 2 ^ 32) -> max <= 2 ^ 62 -> wlegal limit hash (w_init max) es -> w_run limit hash (w_init max) es = Ok (s, t) ->
  exists sent waiting, accepted t = sent ++ waiting /\ frames_of hash sent (wire t) /\
    (Forall writes_start es -> w_writing s = false -> ~ In OClose t -> waiting = []).
Proof.
  intros limit max hash es s t Hh Hmax L E. destruct (run_facts limit max hash Hh Hmax es s t L E) as (gs & fly & can & H1 & H2 & H3 & H4 & H5 & H6 & H7 & H8 & H9 & _).
  destruct (w_writing s) eqn:W.
  - destruct (H6 eq_refl) as (-> & (gs' & ->) & _). rewrite app_nil_r in H3. exists (succeeded t ++ fly), (concat gs'). split; [rewrite H2, H3; cbn [concat]; now rewrite <- app_assoc|].
    split; [|discriminate]. rewrite H4. apply (frames_stream max); trivial. rewrite H2, H3 in H5. cbn [concat] in H5. rewrite app_assoc in H5. now apply Forall_app in H5.
  - specialize (H7 eq_refl). subst fly. rewrite app_nil_r in H4. exists (succeeded t), (can ++ concat gs). split; [rewrite H2, H3; now rewrite <- app_assoc|]. split.
    + rewrite H4. apply (frames_stream max); trivial. rewrite H2, H3, <- app_assoc in H5. now apply Forall_app in H5.
    + intros X _ Y. rewrite (H9 X eq_refl). destruct can; [reflexivity|]. destruct H8; [discriminate|contradiction].
Qed.
Print Assumptions C14_send_order.

(** C14: the sender never runs into undefined behaviour (merge buffer, block contents) if the
    allocator can provide the merged block ... *)
Theorem C14_sender_safe_partial : forall limit max hash es,
  (forall p, hash p < 2 ^ 32) -> max <= 2 ^ 62 -> wlegal limit hash (w_init max) es -> Forall merge_memory es -> w_run limit hash (w_init max) es <> Crash.
Proof.
  intros limit max hash es Hh Hmax L M E. pose proof (run_inv limit max hash Hh Hmax es _ [] (init_inv max hash Hmax) L) as R. rewrite E in R. contradiction.
Qed.
Print Assumptions C14_sender_safe_partial.
(** ... and does when it cannot: two small messages wait, the allocator fails once. *)
Theorem C14_merge_out_of_memory_refuted : exists es, forall hash, wlegal 0 hash (w_init 0) es /\ w_run 0 hash (w_init 0) es = Crash.
Proof.
  exists [ESend [1] true true 0%Z; ESend [2] true true 0%Z; ESend [3] true true 0%Z; EDone 0%Z [] false 0%Z]. intros hash. split; [|vm_compute; reflexivity].
  legal.
Qed.
Print Assumptions C14_merge_out_of_memory_refuted.

(** C14: "a send that returned an error is not transmitted" is false: a message whose send
    returned WRITE_FAILED stays queued and is transmitted with the next one. *)
Theorem C14_failed_send_refuted : exists es p, forall hash, wlegal 0 hash (w_init 0) es /\
  exists s t, w_run 0 hash (w_init 0) es = Ok (s, t) /\ In (OSend p (-603)) t /\ In (ODone 0 0 p) t.
Proof.
  exists [ESend [1] true true (-1)%Z; ESend [2] true true 0%Z; EDone 0%Z [] true 0%Z], [1]. intros hash. split.
  - legal.
  - eexists _, _. split; [vm_compute; reflexivity|]. split; [left; reflexivity|]. do 3 right. left. reflexivity.
Qed.
Print Assumptions C14_failed_send_refuted.

(** C15: at every point of every schedule, callbacks included, the messages reported written
    are the first ones taken, each once and in order; those reported with success are the
    ones handed to the transport and completed; a message is reported cancelled only after
    the connection was closed; when the queue is idle or the connection closed, everything
    was reported (no write having failed to start). *)
Theorem C15_written_once : forall limit max hash es s t,
  (forall p, hash p < 2 ^ 32) -> max <= 2 ^ 62 -> wlegal limit hash (w_init max) es -> w_run limit hash (w_init max) es = Ok (s, t) ->
  exists pending cancelled inflight, accepted t = reported t ++ pending /\ reported t = succeeded t ++ cancelled /\
    frames_of hash (succeeded t ++ inflight) (wire t) /\ (w_writing s = false -> inflight = []) /\ (cancelled <> [] -> In OClose t) /\
    (Forall writes_start es -> w_writing s = false \/ In OClosed t -> pending = []).
Proof.
  intros limit max hash es s t Hh Hmax L E. destruct (run_facts limit max hash Hh Hmax es s t L E) as (gs & fly & can & H1 & H2 & H3 & H4 & H5 & H6 & H7 & H8 & H9 & H10 & _).
  exists (concat gs), can, fly. split; trivial. split; trivial. split; [|split; [trivial|split]].
  - rewrite H4. apply (frames_stream max); trivial. rewrite H2, H3 in H5. destruct (w_writing s) eqn:W.
    + destruct (H6 eq_refl) as (-> & (gs' & ->) & _). rewrite app_nil_r in *. cbn [concat] in H5. rewrite app_assoc in H5. now apply Forall_app in H5.
    + rewrite (H7 eq_refl), app_nil_r. rewrite <- app_assoc in H5. now apply Forall_app in H5.
  - intros X. now apply H8.
  - intros X Y. assert (w_writing s = false) by (destruct Y; auto). rewrite (H9 X H). reflexivity.
Qed.
Print Assumptions C15_written_once.
(** Without that proviso it is false: a message accepted with success is never reported when
    its write cannot be started and the connection is closed. *)
Theorem C15_lost_callback_refuted : exists es p, forall hash, wlegal 0 hash (w_init 0) es /\
  exists s t, w_run 0 hash (w_init 0) es = Ok (s, t) /\ In (OSend p 0) t /\ In OClosed t /\ ~ In p (reported t).
Proof.
  exists [ESend [1] true true 0%Z; ESend [2] true true 0%Z; EDone 0%Z [] true (-32)%Z; EDisc false; EClosed], [2]. intros hash. split.
  - legal.
  - eexists _, _. split; [vm_compute; reflexivity|]. split; [do 2 right; left; reflexivity|]. split; [do 5 right; left; reflexivity|]. vm_compute. intros [X|[]]. discriminate.
Qed.
Print Assumptions C15_lost_callback_refuted.
(** "Reported written with success" does not mean written: libuv's failure is not passed on. *)
Theorem C15_success_refuted : exists es p, forall hash, wlegal 0 hash (w_init 0) es /\
  exists s t, w_run 0 hash (w_init 0) es = Ok (s, t) /\ In (ODone (-104) 0 p) t.
Proof.
  exists [ESend [1] true true 0%Z; EDone (-104)%Z [] true 0%Z], [1]. intros hash. split.
  - legal.
  - eexists _, _. split; [vm_compute; reflexivity|]. do 2 right. left. reflexivity.
Qed.
Print Assumptions C15_success_refuted.

(** C52: a gentle disconnect flushes: when the handle is closed without force, every message
    taken was handed to the transport and reported with success before. *)
Theorem C52_graceful_close_flushes : forall limit max hash es s t,
  (forall p, hash p < 2 ^ 32) -> max <= 2 ^ 62 -> wlegal limit hash (w_init max) es -> w_run limit hash (w_init max) es = Ok (s, t) ->
  Forall writes_start es -> Forall gentle es -> In OClose t -> frames_of hash (accepted t) (wire t) /\ succeeded t = accepted t.
Proof.
  intros limit max hash es s t Hh Hmax L E St Ge C.
  (* one step before, nothing was cancelled: cancelling needs a message waiting while closing *)
  assert (G : forall es s0 t0, Inv max hash s0 t0 -> flow s0 -> gentle_s s0 -> reported t0 = succeeded t0 -> wlegal limit hash s0 es -> Forall writes_start es -> Forall gentle es ->
     forall s t, w_run limit hash s0 es = Ok (s, t) -> reported (t0 ++ t) = succeeded (t0 ++ t)).
  { clear - Hh Hmax. induction es as [|e es IH]; intros s0 t0 I Fw Gs R L St Ge s t E; cbn [w_run] in E.
    - assert (t = []) by congruence. subst. now rewrite app_nil_r.
    - cbn [wlegal] in L. destruct L as [L1 L2]. pose proof (step_inv limit max hash Hh Hmax s0 t0 e I L1) as S. destruct (w_step limit hash s0 e) as [[s1 o1]|] eqn:Es; [|discriminate].
      destruct S as (S1 & S2 & S3). inversion St as [|? ? St1 St2]; inversion Ge as [|? ? Ge1 Ge2]; subst.
      destruct (w_run limit hash s1 es) as [[s2 o2]|] eqn:Er; [|discriminate]. assert (s = s2 /\ t = o1 ++ o2) as [-> ->] by (split; congruence). rewrite app_assoc.
      apply (IH s1 (t0 ++ o1)) with (s := s2); auto. destruct S1 as ((gs & fly & can & H1 & H2 & H3 & _ & _ & H6 & _ & H8) & _).
      destruct can as [|x can]; [rewrite app_nil_r in H3; exact H3|exfalso]. destruct H8 as [-> C]; [discriminate|].
      (* the step cancelled something although the state was gentle *)
      rewrite reported_app, succeeded_app, R in H3. rewrite <- app_assoc in H3. apply app_inv_head in H3.
      assert (X : reported o1 = succeeded o1); [|rewrite X in H3; rewrite <- app_nil_r in H3 at 1; apply app_inv_head in H3; discriminate].
      clear H3 H2 H1 H6 IH L2 Er. destruct e as [p ok1 ok2 uv|uv acts ok uv'|f|]; cbn [w_step allowed] in *.
      + unfold w_send in Es. destruct ((0 <? limit) && (limit <? blen p)); [assert (o1 = [OSend p E_INVALID_SIZE]) by congruence; subst; reflexivity|].
        destruct (w_st s0) eqn:W; [|assert (o1 = [OSend p E_CLOSING]) by congruence; subst; reflexivity..].
        assert (NC : w_closing s0 = false) by (destruct (w_closing s0) eqn:Y; trivial; destruct I as (_ & (Fa & _) & _); elim (Fa Y); trivial).
        assert (Go : forall s3, w_closing s3 = false -> match try_write_all ok2 uv s3 with Crash => Crash | Ok (s', c, o) => Ok (s', o ++ [OSend p c]) end = Ok (s1, o1) -> reported o1 = succeeded o1).
        { intros s3 N3 Y. destruct (try_write_all ok2 uv s3) as [[[s' c] o]|] eqn:T; [|discriminate]. assert (o1 = o ++ [OSend p c]) by congruence. subst o1. rewrite reported_app, succeeded_app. f_equal. exact (try_silent _ _ _ _ _ _ T N3). }
        destruct p as [|z p0]; [apply (Go s0); trivial|]. destruct (d_push_back ok1 (w_q s0) (block_of hash (z :: p0))) as [c m]. destruct (c <? 0)%Z; [assert (o1 = [OSend (z :: p0) c]) by congruence; subst; reflexivity|].
        apply (Go (set_q s0 m)); trivial.
      + destruct L1 as [L1 La]. destruct I as (Co & Fl & Cl & Cd). destruct Co as (gs & fly' & can' & J1 & J2 & J3 & J4 & J5 & J6 & J7 & J8). destruct (J6 L1) as (-> & (gs' & ->) & _).
        assert (NC : w_closing s0 = false) by (destruct (w_closing s0) eqn:Y; trivial; destruct (Gs Y); congruence).
        unfold w_done in Es. destruct (d_list (w_q s0)) as [|b r] eqn:Eb; [apply (Q_nil max hash) in J1; trivial; discriminate|].
        assert (Gb : gb hash b fly') by (destruct (Q_cons max hash _ _ _ _ J1 Eb) as (g & x0 & Y & Gb); congruence). destruct (gb_body max hash Hh Hmax _ _ Gb) as (B1 & B2 & B3 & B4 & B5).
        rewrite B5, (proj2 (N.eqb_neq _ _)), (proj2 (N.ltb_ge _ _)) in Es by (unfold uvw in *; lia).
        rewrite B1 in Es. replace (N.to_nat (d_size b - uvw)) with (length (frames hash fly')) in Es by (rewrite B2; unfold blen; lia). rewrite firstn_all, (block_msgs_frames max hash Hh Hmax) in Es by (trivial; apply Gb).
        destruct (callbacks_spec limit max hash Hh Hmax uv fly' acts s0 _ L1 J1 La) as (s3 & o3 & E3 & R1 & R2 & _ & _ & _ & _ & _ & G1). rewrite E3 in Es.
        destruct (try_write_all ok uv' (set_writing (set_q s3 (snd (d_pop_front (w_q s3) (d_size b) true))) false)) as [[[s4 c4] o4]|] eqn:T; [|discriminate].
        assert (Y : reported o4 = succeeded o4) by (apply (try_silent _ _ _ _ _ _ T); cbn [w_closing set_writing set_q]; rewrite (G1 Ge1); exact NC).
        destruct (match w_st s4 with Disconnecting => if w_writing s4 then (s4, []) else disc_run s4 | _ => (s4, []) end) as [s5 o5] eqn:E5.
        assert (o1 = o3 ++ o4 ++ o5) by congruence. subst o1. rewrite !reported_app, !succeeded_app, R1, R2, Y. f_equal. f_equal.
        unfold disc_run in E5. destruct (w_st s4); [|destruct (w_writing s4); [|destruct (w_closing s4)]|]; assert (o5 = [] \/ o5 = [OClose]) as [-> | ->] by (first [left; congruence|right; congruence]); reflexivity.
      + pose proof (disc_later s0 f) as D. assert (Y : w_disc s0 f = (s1, o1)) by congruence. rewrite Y in D. destruct D as (_ & _ & _ & D1 & D2 & _). congruence.
      + assert (o1 = [OClosed]) by congruence. subst. reflexivity. }
  assert (R : reported t = succeeded t).
  { apply (G es (w_init max) []) with (s := s); trivial; [apply init_inv; trivial|intros _; reflexivity|intros X; discriminate]. }
  destruct (run_facts limit max hash Hh Hmax es s t L E) as (gs & fly & can & H1 & H2 & H3 & H4 & H5 & H6 & H7 & H8 & H9 & H10 & H11 & _).
  pose proof (H11 St Ge C) as W. rewrite (H9 St W), app_nil_r in H2. rewrite (H7 W), app_nil_r in H4. rewrite H2, R. split; trivial. rewrite H4. apply (frames_stream max); trivial. congruence.
Qed.
Print Assumptions C52_graceful_close_flushes.

(** C53: while a write is in progress, the block at the head of the queue holds exactly the
    bytes handed to the transport by the last write, and nothing was reported or handed over
    since: one write at a time, and its memory stays as it was until it completes. *)
Theorem C53_memory_stable : forall limit max hash es s t,
  (forall p, hash p < 2 ^ 32) -> max <= 2 ^ 62 -> wlegal limit hash (w_init max) es -> w_run limit hash (w_init max) es = Ok (s, t) -> w_writing s = true ->
  exists b more t1 t2, d_list (w_q s) = b :: more /\ t = t1 ++ OWrite (body b) :: t2 /\ reported t2 = [] /\ wire t2 = [] /\ d_used b = 0 /\ 0 < blen (body b) < 2 ^ 32.
Proof.
  intros limit max hash es s t Hh Hmax L E W. destruct (run_facts limit max hash Hh Hmax es s t L E) as (gs & fly & can & H1 & H2 & H3 & H4 & H5 & H6 & _).
  destruct (H6 W) as (_ & (gs' & ->) & (t1 & t2 & -> & R & Wi)). destruct (d_list (w_q s)) as [|b more] eqn:Eb; [apply (Q_nil max hash) in H1; trivial; discriminate|].
  destruct (Q_cons max hash _ _ _ _ H1 Eb) as (g & x0 & Y & Gb). assert (fly = g) by congruence. subst g. destruct (gb_body max hash Hh Hmax _ _ Gb) as (B1 & B2 & B3 & B4 & B5).
  exists b, more, t1, t2. rewrite B1. split; trivial. split; trivial. split; trivial. split; trivial. destruct Gb as (_ & U & _ & _ & B & _). split; trivial. split; [lia|exact B].
Qed.
Print Assumptions C53_memory_stable.

Lemma sent_so_far limit max hash es s t :
  (forall p, hash p < 2 ^ 32) -> max <= 2 ^ 62 -> wlegal limit hash (w_init max) es -> w_run limit hash (w_init max) es = Ok (s, t) ->
  exists sent waiting, accepted t = sent ++ waiting /\ frames_of hash sent (wire t) /\ Forall short (accepted t) /\
    (Forall writes_start es -> w_writing s = false -> ~ In OClose t \/ Forall gentle es -> waiting = []).
Proof.
  intros Hh Hmax L E. destruct (run_facts limit max hash Hh Hmax es s t L E) as (gs & fly & can & H1 & H2 & H3 & H4 & H5 & H6 & H7 & H8 & H9 & _).
  destruct (w_writing s) eqn:W.
  - destruct (H6 eq_refl) as (-> & (gs' & ->) & _). rewrite app_nil_r in H3. exists (succeeded t ++ fly), (concat gs'). split; [rewrite H2, H3; cbn [concat]; now rewrite <- app_assoc|].
    split; [|split; [trivial|discriminate]]. rewrite H4. apply (frames_stream max); trivial. rewrite H2, H3 in H5. cbn [concat] in H5. rewrite app_assoc in H5. now apply Forall_app in H5.
  - specialize (H7 eq_refl). subst fly. rewrite app_nil_r in H4. exists (succeeded t), (can ++ concat gs). split; [rewrite H2, H3; now rewrite <- app_assoc|]. split; [|split; trivial].
    + rewrite H4. apply (frames_stream max); trivial. rewrite H2, H3, <- app_assoc in H5. now apply Forall_app in H5.
    + intros X _ Y. destruct can as [|c can]; [exact (f_equal (@concat _) (H9 X eq_refl))|]. destruct H8 as [-> I]; [discriminate|]. destruct Y as [Y|Ge]; [contradiction|exfalso].
      destruct (C52_graceful_close_flushes limit max hash es s t Hh Hmax L E X Ge I) as [_ S2]. cbn [concat] in H2. rewrite app_nil_r in H2. rewrite <- S2 in H2. rewrite H3 in H2.
      rewrite <- (app_nil_r (succeeded t)) in H2 at 1. apply app_inv_head in H2. discriminate.
Qed.
(** C54: both sides together.  Whatever the sender's schedule and however the stream is cut
    on the way, the receiver delivers exactly the first messages taken by the sender, in
    order, and nothing else; all of them once the transport has delivered everything and the
    sender is idle or was closed gently. *)
Theorem C54_end_to_end : forall limit max hash es s t cfg ea sf hf rs fut,
  (forall p, hash p < 2 ^ 32) -> max <= 2 ^ 62 -> wlegal limit hash (w_init max) es -> w_run limit hash (w_init max) es = Ok (s, t) ->
  (forall m, In m (accepted t) -> (0 < c_max cfg -> 4 + blen m <= c_max cfg) /\ (0 < c_limit cfg -> blen m <= c_limit cfg)) ->
  legal cfg hash (rx_init cfg ea sf hf) rs -> healthy rs -> data_of rs ++ fut = wire t ->
  ea + agains rs <= c_eagain cfg -> sf + others_size rs <= c_size cfg -> hf + others_hash rs <= c_hash cfg ->
  exists s' k, rx_run cfg hash (rx_init cfg ea sf hf) rs = Fine (s', map (fun m => (0%Z, m)) (firstn k (accepted t))) /\ r_open s' = true /\
    (fut = [] -> Forall writes_start es -> w_writing s = false -> ~ In OClose t \/ Forall gentle es -> firstn k (accepted t) = accepted t).
Proof.
  intros limit max hash es s t cfg ea sf hf rs fut Hh Hmax L E Hm Le He D A B C.
  destruct (sent_so_far limit max hash es s t Hh Hmax L E) as (sent & waiting & Eq & St & Sh & Idle).
  assert (Hs : forall m, In m sent -> In m (accepted t)) by (intros m X; rewrite Eq; apply in_or_app; now left).
  unfold frames_of in St. set (items := map (fun m => (hash m, m)) sent) in *.
  assert (Nd : number (damaged hash) items = 0).
  { unfold items. clear. induction sent as [|m l IH]; [reflexivity|]. cbn [map]. rewrite number_cons, IH. unfold number, damaged. cbn [filter fst snd]. now rewrite N.eqb_refl. }
  assert (No : number (oversize (c_limit cfg)) items = 0).
  { unfold items. clear - Hm Hs. induction sent as [|m l IH]; [reflexivity|]. cbn [map]. rewrite number_cons, IH by (intros x X; apply Hs; now right).
    unfold number, oversize. cbn [filter snd]. destruct (Hm m) as (_ & H); [apply Hs; now left|].
    destruct (0 <? c_limit cfg) eqn:Z; cbn [andb]; [|reflexivity]. apply N.ltb_lt in Z. rewrite (proj2 (N.ltb_ge _ _)) by auto. reflexivity. }
  assert (Fi : Forall (fits cfg) items).
  { unfold items. apply Forall_map. apply Forall_forall. intros m X. split; cbn [snd]; [rewrite Forall_forall in Sh; apply Sh; auto|]. apply Hm; auto. }
  destruct (C12_damaged_frames_isolated cfg hash ea sf hf items (wire t) rs fut) as (s' & k & whole & rest & R & Op & K & _ & _ & _ & F); trivial; try (rewrite ?Nd, ?No; lia).
  unfold items in K. rewrite map_length in K.
  assert (Fk : firstn k (accepted t) = firstn k sent).
  { rewrite Eq, firstn_app. replace (k - length sent)%nat with O by lia. apply app_nil_r. }
  exists s', k. rewrite Fk. split; [|split; trivial].
  - rewrite R. do 2 f_equal. unfold items. rewrite <- firstn_map, <- firstn_map. f_equal. rewrite map_map. apply map_ext_in. intros m X. unfold expected. cbn [fst snd].
    destruct (Hm m (Hs _ X)) as (_ & H). unfold oversize, damaged. cbn [fst snd]. rewrite N.eqb_refl. destruct (0 <? c_limit cfg) eqn:Z; cbn [andb]; [|reflexivity]. apply N.ltb_lt in Z. rewrite (proj2 (N.ltb_ge _ _)) by auto. reflexivity.
  - intros X Ws W Cl. specialize (F X). unfold items in F. rewrite map_length in F. subst k. rewrite firstn_all. rewrite Eq.
    rewrite (Idle Ws W Cl). now rewrite app_nil_r.
Qed.
Print Assumptions C54_end_to_end.

(** A concrete run: the first message goes out alone, the next two are merged into one
    block and sent together while a fourth is sent from a callback, then the connection is
    closed gently; the receiver gets the bytes in two pieces. *)
Definition events2 : list wev :=
  [ESend [1; 2; 3] true true 0%Z; ESend [4] true true 0%Z; ESend [5; 6] true true 0%Z; EDone 0%Z [[ASend [7] true]] true 0%Z; EDone 0%Z [] true 0%Z; EDisc false; EClosed].
Definition wire2 : bytes := fr (h1 [1; 2; 3]) [1; 2; 3] ++ fr (h1 [4]) [4] ++ fr (h1 [5; 6]) [5; 6] ++ fr (h1 [7]) [7].
Definition reads2 : list rev := [EData (firstn 11 wire2) true; EAgain; EData (skipn 11 wire2) true].
Example send_case : wlegal 262144 h1 (w_init 2097152) events2 /\ Forall merge_memory events2 /\ Forall writes_start events2 /\ Forall gentle events2 /\
  match w_run 262144 h1 (w_init 2097152) events2 with
  | Ok (s, t) => w_st s = Disconnected /\ w_writing s = false /\ wire t = wire2 /\ accepted t = [[1; 2; 3]; [4]; [5; 6]; [7]] /\ succeeded t = accepted t /\
      In OClose t /\ number (fun o => match o with OWrite _ => true | _ => false end) t = 2
  | Crash => False
  end /\
  legal default_rcfg h1 (rx_init default_rcfg 0 0 0) reads2 /\ healthy reads2 /\ data_of reads2 = wire2 /\ agains reads2 <= c_eagain default_rcfg /\
  match rx_run default_rcfg h1 (rx_init default_rcfg 0 0 0) reads2 with Fine (s, outs) => outs = [(0%Z, [1; 2; 3]); (0%Z, [4]); (0%Z, [5; 6]); (0%Z, [7])] | _ => False end.
Proof.
  split; [legal|]. split; [repeat constructor|]. split; [repeat constructor|]. split; [repeat constructor|].
  split; [vm_compute; repeat split; auto 20|]. split; [vm_compute; repeat first [exact I|reflexivity|discriminate|split]|]. split; [vm_compute; repeat constructor|].
  split; [reflexivity|]. split; [vm_compute; discriminate|vm_compute; reflexivity].
Qed.

(** ** Closing *)
Definition closes (t : list wout) : N := number (fun o => match o with OClose => true | _ => false end) t.
Lemma closes_app a b : closes (a ++ b) = closes a + closes b.
Proof. apply number_app. Qed.
Definition bit (b : bool) : N := if b then 1 else 0.
Definition counts (s : wx) (r : wres (wx * list wout)) : Prop := match r with Ok (s', o) => closes o + bit (w_closing s) = bit (w_closing s') | Crash => True end.
Lemma cancel_closes fuel m : match cancel fuel m with Ok (_, o) => closes o = 0 | Crash => True end.
Proof.
  revert m. induction fuel as [|f IH]; intros m; cbn [cancel]; destruct (d_list m) as [|b r]; try reflexivity. destruct (d_size b <? uvw); trivial. destruct (block_msgs _ _) as [ms|]; trivial.
  specialize (IH (snd (d_pop_front m (d_size b) true))). destruct (cancel f _) as [[m' o]|]; trivial. rewrite closes_app, IH, N.add_0_r. induction ms as [|x ms IHm]; [reflexivity|exact IHm].
Qed.
Lemma try_closes ok uv s : match try_write_all ok uv s with Ok (s', _, o) => closes o = 0 /\ w_closing s' = w_closing s /\ w_st s' = w_st s | Crash => True end.
Proof.
  unfold try_write_all. generalize (S (length (d_list (w_q s)))). intros n. revert s. induction n as [|n IH]; intros s; cbn [try_write]; (destruct (w_writing s); [repeat split|]);
    (destruct (d_list (w_q s)) as [|b r]; [repeat split|]); (destruct (w_closing s) eqn:C; [pose proof (cancel_closes (length (b :: r)) (w_q s)) as H; destruct (cancel _ _) as [[m o]|]; trivial; repeat split; trivial|]);
    (destruct (merge ok (w_q s)) as [m|]; [|trivial]); destruct (d_list m) as [|b1 r1]; trivial.
  destruct (d_size b1 <=? uvw).
  - specialize (IH (set_q s (snd (d_pop_front m (d_size b1) true)))). destruct (try_write n ok uv _) as [[[s' c] o]|]; trivial. cbn [w_closing w_st set_q] in IH. rewrite C in IH. exact IH.
  - destruct (uv =? 0)%Z; repeat split; trivial.
Qed.
(** Effect on the closing flag and the status; [f]: a disconnect was asked for. *)
Definition moves (f : bool) (s : wx) (r : wres (wx * list wout)) : Prop :=
  match r with Ok (s', o) => closes o + bit (w_closing s) = bit (w_closing s') /\ (w_st s <> Connected \/ f = true -> w_st s' <> Connected) | Crash => True end.
Lemma moves_send limit hash s p ok1 ok2 uv : moves false s (w_send limit hash s p ok1 ok2 uv).
Proof.
  unfold w_send. destruct ((0 <? limit) && (limit <? blen p)); [split; [reflexivity|intros [X|X]; [trivial|discriminate]]|]. destruct (w_st s) eqn:W; try (split; [reflexivity|intros _; rewrite W; discriminate]).
  assert (Go : forall s0, w_closing s0 = w_closing s -> moves false s match try_write_all ok2 uv s0 with Crash => Crash | Ok (s', c, o) => Ok (s', o ++ [OSend p c]) end).
  { intros s0 C. pose proof (try_closes ok2 uv s0) as T. destruct (try_write_all ok2 uv s0) as [[[s' c] o]|]; [|exact I]. destruct T as (T1 & T2 & T3). split; [rewrite closes_app, T1, T2, C; reflexivity|].
    intros [X|X]; [congruence|discriminate]. }
  destruct p as [|z p0]; [apply Go; trivial|]. destruct (d_push_back ok1 (w_q s) _) as [c m]. destruct (c <? 0)%Z; [split; [reflexivity|intros [X|X]; [trivial|discriminate]]|]. apply Go; trivial.
Qed.
Lemma moves_disc s f : moves true s (Ok (w_disc s f)).
Proof.
  unfold w_disc. destruct (w_st s) eqn:W; try (split; [reflexivity|intros _; rewrite W; discriminate]). destruct (negb f && _); [split; [reflexivity|intros _; discriminate]|].
  unfold disc_run. change (w_closing (set_st s Disconnecting)) with (w_closing s). destruct (w_closing s) eqn:C; (split; [|intros _; discriminate]); cbn [w_closing set_closing set_st bit]; rewrite C; reflexivity.
Qed.
Lemma moves_trans f g s s1 o1 r : moves f s (Ok (s1, o1)) -> moves g s1 r -> moves (f || g) s match r with Ok (s2, o2) => Ok (s2, o1 ++ o2) | Crash => Crash end.
Proof.
  intros [A B] C. destruct r as [[s2 o2]|]; [|exact I]. destruct C as [C D]. split; [rewrite closes_app; lia|]. intros [X|X]; apply D; [left; auto|]. apply orb_true_iff in X. destruct X; [left; auto|auto].
Qed.
Lemma moves_weaken f s r : moves f s r -> moves false s r.
Proof. destruct r as [[s' o]|]; trivial. intros [A B]. split; trivial. intros [X|X]; [auto|discriminate]. Qed.
Lemma moves_acts limit hash l s : moves false s (do_acts limit hash s l).
Proof.
  revert s. induction l as [|a l IH]; intros s; cbn [do_acts]; [split; [reflexivity|intros [X|X]; [trivial|discriminate]]|].
  assert (A : moves false s match a with ASend p ok => w_send limit hash s p ok false 0 | ADisc f => Ok (w_disc s f) end) by (destruct a; [apply moves_send|apply (moves_weaken true), moves_disc]).
  destruct (match a with ASend p ok => w_send limit hash s p ok false 0 | ADisc f => Ok (w_disc s f) end) as [[s1 o1]|]; [|exact I]. apply (moves_trans false false _ s1); auto.
Qed.
Lemma moves_callbacks limit hash uv ms acts s : moves false s (callbacks limit hash s uv ms acts).
Proof.
  revert acts s. induction ms as [|p ms IH]; intros acts s; cbn [callbacks]; [split; [reflexivity|intros [X|X]; [trivial|discriminate]]|].
  pose proof (moves_acts limit hash (hd [] acts) s) as A. destruct (do_acts limit hash s (hd [] acts)) as [[s1 o1]|]; [|exact I]. pose proof (moves_trans false false _ s1 o1 _ A (IH (tl acts) s1)) as T.
  destruct (callbacks limit hash s1 uv ms (tl acts)) as [[s2 o2]|]; [|exact I]. exact T.
Qed.
Definition asked (e : wev) : bool := match e with EDisc _ => true | _ => false end.
Lemma moves_step limit hash s e : moves (asked e) s (w_step limit hash s e).
Proof.
  destruct e as [p ok1 ok2 uv|uv acts ok uv'|f|]; cbn [w_step asked]; [apply moves_send| |apply moves_disc|split; [reflexivity|intros _; discriminate]].
  unfold w_done. set (r1 := match d_list (w_q s) with [] => Ok (s, []) | _ => _ end).
  assert (R1 : moves false s r1).
  { unfold r1. destruct (d_list (w_q s)) as [|b r]; [split; [reflexivity|intros [X|X]; [trivial|discriminate]]|]. destruct (d_left b =? 0); [split; [reflexivity|intros [X|X]; [trivial|discriminate]]|].
    destruct (d_left b <? uvw); [exact I|]. destruct (block_msgs _ _) as [ms|]; [|exact I]. pose proof (moves_callbacks limit hash uv ms acts s) as A. destruct (callbacks limit hash s uv ms acts) as [[s1 o1]|]; [|exact I]. exact A. }
  clearbody r1. destruct r1 as [[s1 o1]|]; [|exact I]. pose proof (try_closes ok uv' (set_writing s1 false)) as T. destruct (try_write_all ok uv' (set_writing s1 false)) as [[[s2 c2] o2]|]; [|exact I]. destruct T as (T1 & T2 & T3).
  assert (R2 : moves false s1 (Ok (s2, o2))) by (split; [rewrite T1, T2; reflexivity|intros [X|X]; [rewrite T3; trivial|discriminate]]).
  assert (R3 : moves false s2 (Ok (match w_st s2 with Disconnecting => if w_writing s2 then (s2, []) else disc_run s2 | _ => (s2, []) end))).
  { destruct (w_st s2) eqn:W; try (split; [reflexivity|intros [X|X]; [trivial|discriminate]]). destruct (w_writing s2); [split; [reflexivity|intros _; rewrite W; discriminate]|].
    unfold disc_run. destruct (w_closing s2) eqn:C; (split; [cbn [w_closing set_closing bit]; rewrite ?C; reflexivity|]); intros _; cbn [w_st set_closing]; rewrite W; discriminate. }
  destruct (match w_st s2 with Disconnecting => _ | _ => _ end) as [s3 o3]. pose proof (moves_trans false false s s1 o1 _ R1 (moves_trans false false s1 s2 o2 _ R2 R3)) as X. exact X.
Qed.
Lemma moves_run limit hash es s : moves (existsb asked es) s (w_run limit hash s es).
Proof.
  revert s. induction es as [|e es IH]; intros s; cbn [w_run existsb]; [split; [reflexivity|intros [X|X]; [trivial|discriminate]]|].
  pose proof (moves_step limit hash s e) as A. destruct (w_step limit hash s e) as [[s1 o1]|]; [|exact I]. pose proof (moves_trans _ _ s s1 o1 _ A (IH s1)) as X.
  destruct (w_run limit hash s1 es) as [[s2 o2]|]; exact X.
Qed.

(** C55: the handle is closed at most once; after a disconnect request it is closed as soon as
    no write is in progress (so at the latest when that write completes), and no message
    is taken afterwards. *)
Theorem C55_disconnect_closes : forall limit max hash es es' s t s' t',
  (forall p, hash p < 2 ^ 32) -> max <= 2 ^ 62 -> wlegal limit hash (w_init max) es -> w_run limit hash (w_init max) es = Ok (s, t) ->
  closes t <= 1 /\ (In OClosed t -> closes t = 1) /\
  (existsb asked es = true -> (w_writing s = false -> closes t = 1) /\ (w_run limit hash s es' = Ok (s', t') -> accepted t' = [])).
Proof.
  intros limit max hash es es' s t s' t' Hh Hmax L E. pose proof (run_inv limit max hash Hh Hmax es _ [] (init_inv max hash Hmax) L) as R. rewrite E in R. destruct R as ((_ & (Fa & Fb & Fc) & Cl & Cd) & _).
  pose proof (moves_run limit hash es (w_init max)) as M. rewrite E in M. destruct M as [M1 M2]. cbn [w_closing w_init bit] in M1. rewrite N.add_0_r in M1. cbn [app] in *.
  split; [rewrite M1; destruct (w_closing s); cbn [bit]; lia|]. split; [intros X; apply Cd in X; destruct (Fb X) as [-> _] in M1; exact M1|].
  intros Ask. assert (W : w_st s <> Connected) by auto. split.
  - intros X. assert (w_closing s = true) as Y by (destruct (w_st s) eqn:Z; [congruence|auto|now apply Fb]). rewrite Y in M1. exact M1.
  - clear - W. revert s s' t' W. induction es' as [|e r IH]; intros s s' t' W E; cbn [w_run] in E; [assert (t' = []) by congruence; subst; reflexivity|].
    pose proof (moves_step limit hash s e) as M. destruct (w_step limit hash s e) as [[s1 o1]|] eqn:Es; [|discriminate]. destruct M as [_ M]. destruct (w_run limit hash s1 r) as [[s2 o2]|] eqn:Er; [|discriminate].
    assert (t' = o1 ++ o2) by congruence. subst t'. rewrite accepted_app, (IH s1 s2 o2) by auto. rewrite app_nil_r. clear - W Es.
    assert (S : forall s p a b c s1 o1, w_st s <> Connected -> w_send limit hash s p a b c = Ok (s1, o1) -> accepted o1 = [] /\ w_st s1 <> Connected).
    { clear. intros s p a b c s1 o1 W E. unfold w_send in E. destruct ((0 <? limit) && (limit <? blen p)); [|destruct (w_st s) eqn:Z; [congruence|..]];
        (assert (s1 = s) by congruence; subst s1; split; [|congruence]); [assert (o1 = [OSend p E_INVALID_SIZE]) by congruence|assert (o1 = [OSend p E_CLOSING]) by congruence..]; subst o1; destruct p; reflexivity. }
    assert (A : forall l s s1 o1, w_st s <> Connected -> do_acts limit hash s l = Ok (s1, o1) -> accepted o1 = [] /\ w_st s1 <> Connected).
    { clear - S. induction l as [|a l IH]; intros s s1 o1 W E; cbn [do_acts] in E; [split; [assert (o1 = []) by congruence; subst; reflexivity|congruence]|].
      destruct (match a with ASend p ok => w_send limit hash s p ok false 0 | ADisc f => Ok (w_disc s f) end) as [[s2 o2]|] eqn:E2; [|discriminate].
      assert (Y : accepted o2 = [] /\ w_st s2 <> Connected).
      { destruct a as [p ok|f]; [apply S in E2; trivial|]. unfold w_disc in E2. destruct (w_st s) eqn:Z; [congruence|..]; (assert (s2 = s /\ o2 = []) as [-> ->] by (split; congruence); split; [reflexivity|congruence]). }
      destruct Y as [Y1 Y2]. destruct (do_acts limit hash s2 l) as [[s3 o3]|] eqn:E3; [|discriminate]. destruct (IH _ _ _ Y2 E3) as [Z1 Z2]. assert (o1 = o2 ++ o3 /\ s1 = s3) as [-> ->] by (split; congruence).
      rewrite accepted_app, Y1, Z1. auto. }
    destruct e as [p ok1 ok2 uv|uv acts ok uv'|f|]; cbn [w_step] in Es.
    + apply S in Es; tauto.
    + assert (C : forall ms acts s s1 o1, w_st s <> Connected -> callbacks limit hash s uv ms acts = Ok (s1, o1) -> accepted o1 = [] /\ w_st s1 <> Connected).
      { clear - A. induction ms as [|p ms IH]; intros acts s s1 o1 W E; cbn [callbacks] in E; [split; [assert (o1 = []) by congruence; subst; reflexivity|congruence]|].
        destruct (do_acts limit hash s (hd [] acts)) as [[s2 o2]|] eqn:E2; [|discriminate]. destruct (A _ _ _ _ W E2) as [Y1 Y2]. destruct (callbacks limit hash s2 uv ms (tl acts)) as [[s3 o3]|] eqn:E3; [|discriminate].
        destruct (IH _ _ _ _ Y2 E3) as [Z1 Z2]. assert (o1 = ODone uv SUCCESS p :: o2 ++ o3 /\ s1 = s3) as [-> ->] by (split; congruence). split; trivial. change (accepted (o2 ++ o3) = []). rewrite accepted_app, Y1, Z1. auto. }
      unfold w_done in Es. set (r1 := match d_list (w_q s) with [] => Ok (s, []) | _ => _ end) in Es.
      assert (R1 : match r1 with Ok (s2, o2) => accepted o2 = [] | Crash => True end).
      { unfold r1. destruct (d_list (w_q s)) as [|b r]; [reflexivity|]. destruct (d_left b =? 0); [reflexivity|]. destruct (d_left b <? uvw); [exact I|]. destruct (block_msgs _ _) as [ms|]; [|exact I].
        destruct (callbacks limit hash s uv ms acts) as [[s2 o2]|] eqn:E2; [|exact I]. apply (C _ _ _ _ _ W E2). }
      clearbody r1. destruct r1 as [[s2 o2]|]; [|discriminate].
      assert (T : match try_write_all ok uv' (set_writing s2 false) with Ok (_, _, o) => accepted o = [] | Crash => True end).
      { clear. generalize (set_writing s2 false). intros s. unfold try_write_all. generalize (S (length (d_list (w_q s)))). intros n. revert s. induction n as [|n IH]; intros s; cbn [try_write]; (destruct (w_writing s); [reflexivity|]);
          (destruct (d_list (w_q s)) as [|b r]; [reflexivity|]);
          (destruct (w_closing s) eqn:C; [|(destruct (merge ok (w_q s)) as [m|]; [|trivial]); destruct (d_list m) as [|b1 r1]; trivial]).
        - generalize (length (b :: r)), (w_q s). clear. induction n as [|f IH]; intros m; cbn [cancel]; destruct (d_list m) as [|b r]; try reflexivity. destruct (d_size b <? uvw); trivial. destruct (block_msgs _ _) as [ms|]; trivial.
          specialize (IH (snd (d_pop_front m (d_size b) true))). destruct (cancel f _) as [[m' o]|]; trivial. rewrite accepted_app, IH, app_nil_r. induction ms as [|x ms IHm]; [reflexivity|exact IHm].
        - generalize (length (b :: r)), (w_q s). clear. induction n as [|f IH]; intros m; cbn [cancel]; destruct (d_list m) as [|b r]; try reflexivity. destruct (d_size b <? uvw); trivial. destruct (block_msgs _ _) as [ms|]; trivial.
          specialize (IH (snd (d_pop_front m (d_size b) true))). destruct (cancel f _) as [[m' o]|]; trivial. rewrite accepted_app, IH, app_nil_r. induction ms as [|x ms IHm]; [reflexivity|exact IHm].
        - destruct (d_size b1 <=? uvw); [apply IH|]. destruct (uv' =? 0)%Z; reflexivity. }
      destruct (try_write_all ok uv' (set_writing s2 false)) as [[[s3 c3] o3]|]; [|discriminate]. destruct (match w_st s3 with Disconnecting => _ | _ => _ end) as [s4 o4] eqn:E4.
      assert (o1 = o2 ++ o3 ++ o4) by congruence. subst o1. rewrite !accepted_app, R1, T. cbn [app].
      unfold disc_run in E4. destruct (w_st s3); [|destruct (w_writing s3); [|destruct (w_closing s3)]|]; assert (o4 = [] \/ o4 = [OClose]) as [-> | ->] by (first [left; congruence|right; congruence]); reflexivity.
    + unfold w_disc in Es. destruct (w_st s) eqn:Z; [congruence|..]; (assert (o1 = []) by congruence; subst; reflexivity).
    + assert (o1 = [OClosed]) by congruence. subst. reflexivity.
Qed.
Print Assumptions C55_disconnect_closes.
