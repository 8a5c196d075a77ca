(** C72: the sending side of the stream channel with a fixed area for the send buffers. *)
From Verif Require Import Base Vint VintSpec VintProof Mem MemSpec MemProof IoSpec IoRecv IoRecvSpec IoRecvProof PropIoRecv IoWrite IoWriteSpec IoWriteProof IoWriteS IoWriteSSpec
  BufferSpec Buffer BufDynProof BufStaticProof BufStaticProof4 IoRing IoWriteSProof.
Local Open Scope N_scope.
Ltac Zify.zify_post_hook ::= idtac.

Ltac vleg :=
  cbn [vlegal]; repeat (split; [cbn [vallowed]; repeat first [exact I|reflexivity|discriminate|split|constructor; fail|apply Forall_cons|apply Forall_nil]|
    match goal with |- context [v_step ?l ?h ?s ?e] => let r := eval vm_compute in (v_step l h s e) in change (v_step l h s e) with r end; cbv beta iota; cbn [vlegal]]); exact I.

Section P.
Variables (limit max : N) (num : nat) (hash : bytes -> N).
Hypothesis Hh : forall p, hash p < 2 ^ 32.
Hypothesis Hmax0 : 0 < max.
Hypothesis Hmax : max < 2 ^ 60.
Hypothesis Hnum : (1 <= num)%nat.

Lemma v_run_facts es s t : vlegal limit hash (v_init max num) es -> v_run limit hash (v_init max num) es = Ok (s, t) ->
  exists gs fly can, VQ max num hash (v_q s) gs /\ accepted t = reported t ++ concat gs /\ reported t = succeeded t ++ can /\ wire t = frames hash (succeeded t ++ fly) /\ Forall short (accepted t) /\
    (v_writing s = true -> can = [] /\ (exists gs', gs = fly :: gs') /\ in_flight t (frames hash fly)) /\ (v_writing s = false -> fly = []) /\
    (can <> [] -> gs = [] /\ In OClose t) /\ (Forall writes_start es -> v_writing s = false -> gs = []) /\
    (In OClosed t -> v_writing s = false) /\ (Forall writes_start es -> Forall gentle es -> In OClose t -> v_writing s = false) /\ (v_closing s = true <-> In OClose t).
Proof.
  intros L E. pose proof (v_run_inv limit max num hash Hh Hmax0 Hmax Hnum es _ [] (v_init_inv max num hash Hnum) L) as R. rewrite E in R. cbn [app] in R. destruct R as (I & Fw & Gs).
  destruct I as ((gs & fly & can & H1 & H2 & H3 & H4 & H5 & H6 & H7 & H8) & (Fa & Fb & Fc) & Cl & Cd). rewrite app_nil_r in *.
  exists gs, fly, can. split; trivial. split; trivial. split; trivial. split; trivial. split; trivial. split; trivial. split; trivial. split; [|split; [|split; [|split]]].
  - intros X. destruct (H8 X) as [Y Z]. split; trivial. now apply Cl.
  - intros X Y. apply (VQ_empty max num hash Hh Hmax0 Hmax Hnum (v_q s)); trivial. apply Fw; trivial. intros _. reflexivity.
  - intros X. apply Cd in X. apply Fb in X. apply X.
  - intros X Y Z. apply Cl in Z. apply (Gs X Y); trivial; [intros _; reflexivity|]. intros F. discriminate.
  - exact Cl.
Qed.
End P.

(** C72: no schedule makes the sender fail an assertion, read or write outside the area or
    misread a block; in particular the block merged from several always finds room (the
    source's "this push_front should always success"). *)
Theorem C72_never_fails : forall limit max num hash es,
  (forall p, hash p < 2 ^ 32) -> 0 < max -> max < 2 ^ 60 -> (1 <= num)%nat -> vlegal limit hash (v_init max num) es -> v_run limit hash (v_init max num) es <> Crash.
Proof.
  intros limit max num hash es Hh Hmax0 Hmax Hnum L E. pose proof (v_run_inv limit max num hash Hh Hmax0 Hmax Hnum es _ [] (v_init_inv max num hash Hnum) L) as R. rewrite E in R. exact R.
Qed.
Print Assumptions C72_never_fails.

(** C72, as C14: at every point of every schedule, the bytes handed to the transport are exactly the
    frames of the first messages taken, in order; whenever no write is in progress and the
    connection is not closing, all of them (no write having failed to start). *)
Theorem C72_send_order : forall limit max num hash es s t,
  (forall p, hash p < 2 ^ 32) -> 0 < max -> max < 2 ^ 60 -> (1 <= num)%nat -> vlegal limit hash (v_init max num) es -> v_run limit hash (v_init max num) es = Ok (s, t) ->
  exists sent waiting, accepted t = sent ++ waiting /\ frames_of hash sent (wire t) /\
    (Forall writes_start es -> v_writing s = false -> ~ In OClose t -> waiting = []).
Proof.
  intros limit max num hash es s t Hh Hmax0 Hmax Hnum L E. assert (Hm2 : max <= 2 ^ 62) by lia. destruct (v_run_facts limit max num hash Hh Hmax0 Hmax Hnum es s t L E) as (gs & fly & can & H1 & H2 & H3 & H4 & H5 & H6 & H7 & H8 & H9 & _).
  destruct (v_writing s) eqn:W.
  - destruct (H6 eq_refl) as (-> & (gs' & ->) & _). rewrite app_nil_r in H3. exists (succeeded t ++ fly), (concat gs'). split; [rewrite H2, H3; cbn [concat]; now rewrite <- app_assoc|].
    split; [|discriminate]. rewrite H4. apply (frames_stream max); trivial. rewrite H2, H3 in H5. cbn [concat] in H5. rewrite app_assoc in H5. now apply Forall_app in H5.
  - specialize (H7 eq_refl). subst fly. rewrite app_nil_r in H4. exists (succeeded t), (can ++ concat gs). split; [rewrite H2, H3; now rewrite <- app_assoc|]. split.
    + rewrite H4. apply (frames_stream max); trivial. rewrite H2, H3, <- app_assoc in H5. now apply Forall_app in H5.
    + intros X _ Y. rewrite (H9 X eq_refl). destruct can; [reflexivity|]. destruct H8; [discriminate|contradiction].
Qed.
Print Assumptions C72_send_order.

(** C72, as C15: at every point of every schedule, callbacks included, the messages reported written
    are the first ones taken, each once and in order; those reported with success are the
    ones handed to the transport and completed; a message is reported cancelled only after
    the connection was closed; when the queue is idle or the connection closed, everything
    was reported (no write having failed to start). *)
Theorem C72_written_once : forall limit max num hash es s t,
  (forall p, hash p < 2 ^ 32) -> 0 < max -> max < 2 ^ 60 -> (1 <= num)%nat -> vlegal limit hash (v_init max num) es -> v_run limit hash (v_init max num) es = Ok (s, t) ->
  exists pending cancelled inflight, accepted t = reported t ++ pending /\ reported t = succeeded t ++ cancelled /\
    frames_of hash (succeeded t ++ inflight) (wire t) /\ (v_writing s = false -> inflight = []) /\ (cancelled <> [] -> In OClose t) /\
    (Forall writes_start es -> v_writing s = false \/ In OClosed t -> pending = []).
Proof.
  intros limit max num hash es s t Hh Hmax0 Hmax Hnum L E. assert (Hm2 : max <= 2 ^ 62) by lia. destruct (v_run_facts limit max num hash Hh Hmax0 Hmax Hnum es s t L E) as (gs & fly & can & H1 & H2 & H3 & H4 & H5 & H6 & H7 & H8 & H9 & H10 & _).
  exists (concat gs), can, fly. split; trivial. split; trivial. split; [|split; [trivial|split]].
  - rewrite H4. apply (frames_stream max); trivial. rewrite H2, H3 in H5. destruct (v_writing s) eqn:W.
    + destruct (H6 eq_refl) as (-> & (gs' & ->) & _). rewrite app_nil_r in *. cbn [concat] in H5. rewrite app_assoc in H5. now apply Forall_app in H5.
    + rewrite (H7 eq_refl), app_nil_r. rewrite <- app_assoc in H5. now apply Forall_app in H5.
  - intros X. now apply H8.
  - intros X Y. assert (v_writing s = false) by (destruct Y; auto). rewrite (H9 X H). reflexivity.
Qed.
Print Assumptions C72_written_once.
(** C72, as C52: a gentle disconnect flushes: when the handle is closed without force, every message
    taken was handed to the transport and reported with success before. *)
Theorem C72_graceful_close_flushes : forall limit max num hash es s t,
  (forall p, hash p < 2 ^ 32) -> 0 < max -> max < 2 ^ 60 -> (1 <= num)%nat -> vlegal limit hash (v_init max num) es -> v_run limit hash (v_init max num) es = Ok (s, t) ->
  Forall writes_start es -> Forall gentle es -> In OClose t -> frames_of hash (accepted t) (wire t) /\ succeeded t = accepted t.
Proof.
  intros limit max num hash es s t Hh Hmax0 Hmax Hnum L E St Ge C. assert (Hm2 : max <= 2 ^ 62) by lia.
  (* one step before, nothing was cancelled: cancelling needs a message waiting while closing *)
  assert (G : forall es s0 t0, VInv max num hash s0 t0 -> vflow s0 -> vgentle s0 -> reported t0 = succeeded t0 -> vlegal limit hash s0 es -> Forall writes_start es -> Forall gentle es ->
     forall s t, v_run limit hash s0 es = Ok (s, t) -> reported (t0 ++ t) = succeeded (t0 ++ t)).
  { clear - Hh Hmax0 Hmax Hnum Hm2. induction es as [|e es IH]; intros s0 t0 I Fw Gs R L St Ge s t E; cbn [v_run] in E.
    - assert (t = []) by congruence. subst. now rewrite app_nil_r.
    - cbn [vlegal] in L. destruct L as [L1 L2]. pose proof (v_step_inv limit max num hash Hh Hmax0 Hmax Hnum s0 t0 e I L1) as S. destruct (v_step limit hash s0 e) as [[s1 o1]|] eqn:Es; [|discriminate].
      destruct S as (S1 & S2 & S3). inversion St as [|? ? St1 St2]; inversion Ge as [|? ? Ge1 Ge2]; subst.
      destruct (v_run limit hash s1 es) as [[s2 o2]|] eqn:Er; [|discriminate]. assert (s = s2 /\ t = o1 ++ o2) as [-> ->] by (split; congruence). rewrite app_assoc.
      apply (IH s1 (t0 ++ o1)) with (s := s2); auto. destruct S1 as ((gs & fly & can & H1 & H2 & H3 & _ & _ & H6 & _ & H8) & _).
      destruct can as [|x can]; [rewrite app_nil_r in H3; exact H3|exfalso]. destruct H8 as [-> C]; [discriminate|].
      (* the step cancelled something although the state was gentle *)
      rewrite reported_app, succeeded_app, R in H3. rewrite <- app_assoc in H3. apply app_inv_head in H3.
      assert (X : reported o1 = succeeded o1); [|rewrite X in H3; rewrite <- app_nil_r in H3 at 1; apply app_inv_head in H3; discriminate].
      clear H3 H2 H1 H6 IH L2 Er. destruct e as [p ok1 ok2 uv|uv acts ok uv'|f|]; cbn [v_step vallowed] in *.
      + unfold v_send in Es. destruct ((0 <? limit) && (limit <? blen p)); [assert (o1 = [OSend p E_INVALID_SIZE]) by congruence; subst; reflexivity|].
        destruct (v_st s0) eqn:W; [|assert (o1 = [OSend p E_CLOSING]) by congruence; subst; reflexivity..].
        assert (NC : v_closing s0 = false) by (destruct (v_closing s0) eqn:Y; trivial; destruct I as (_ & (Fa & _) & _); elim (Fa Y); trivial).
        assert (Go : forall s3, v_closing s3 = false -> match v_try_all uv s3 with Crash => Crash | Ok (s', c, o) => Ok (s', o ++ [OSend p c]) end = Ok (s1, o1) -> reported o1 = succeeded o1).
        { intros s3 N3 Y. destruct (v_try_all uv s3) as [[[s' c] o]|] eqn:T; [|discriminate]. assert (o1 = o ++ [OSend p c]) by congruence. subst o1. rewrite reported_app, succeeded_app. f_equal. exact (v_try_silent _ _ _ _ _ T N3). }
        destruct p as [|z p0]; [apply (Go s0); trivial|]. destruct (v_push static_push_back (v_q s0) (block_of hash (z :: p0))) as [[c m]|]; [|discriminate]. destruct (c <? 0)%Z; [assert (o1 = [OSend (z :: p0) c]) by congruence; subst; reflexivity|].
        apply (Go (vset_q s0 m)); trivial.
      + destruct L1 as [L1 La]. destruct I as (Co & Fl & Cl & Cd). destruct Co as (gs & fly' & can' & J1 & J2 & J3 & J4 & J5 & J6 & J7 & J8). destruct (J6 L1) as (-> & (gs' & ->) & _).
        assert (NC : v_closing s0 = false) by (destruct (v_closing s0) eqn:Y; trivial; destruct (Gs Y); congruence).
        unfold v_done in Es. destruct (VQ_cons max num hash Hh Hmax0 Hmax Hnum _ _ _ J1) as (_ & k & Ek & Uz & Bo & Sz & B1 & B2 & Sg & Ne & _). rewrite Ek, Uz in Es. cbn [N.eqb negb] in Es.
        rewrite (proj2 (N.eqb_neq _ _)), (proj2 (N.ltb_ge _ _)) in Es by (unfold uvw in *; lia).
        rewrite Bo, (block_msgs_frames max hash Hh Hm2) in Es by trivial.
        destruct (v_callbacks_spec limit max num hash Hh Hmax0 Hmax Hnum uv fly' acts s0 _ L1 J1 La) as (s3 & o3 & E3 & R1 & R2 & _ & _ & _ & _ & G1). rewrite E3 in Es.
        destruct (v_pop (v_q s3) (k_size k)) as [m3|]; [|discriminate].
        destruct (v_try_all uv' (vset_writing (vset_q s3 m3) false)) as [[[s4 c4] o4]|] eqn:T; [|discriminate].
        assert (Y : reported o4 = succeeded o4) by (apply (v_try_silent _ _ _ _ _ T); cbn [v_closing vset_writing vset_q]; rewrite (G1 Ge1); exact NC).
        destruct (match v_st s4 with Disconnecting => if v_writing s4 then (s4, []) else v_disc_run s4 | _ => (s4, []) end) as [s5 o5] eqn:E5.
        assert (o1 = o3 ++ o4 ++ o5) by congruence. subst o1. rewrite !reported_app, !succeeded_app, R1, R2, Y. f_equal. f_equal.
        unfold v_disc_run in E5. destruct (v_st s4); [|destruct (v_writing s4); [|destruct (v_closing s4)]|]; assert (o5 = [] \/ o5 = [OClose]) as [-> | ->] by (first [left; congruence|right; congruence]); reflexivity.
      + pose proof (v_disc_later s0 f) as D. assert (Y : v_disc s0 f = (s1, o1)) by congruence. rewrite Y in D. destruct D as (_ & _ & _ & D1 & D2 & _). congruence.
      + assert (o1 = [OClosed]) by congruence. subst. reflexivity. }
  assert (R : reported t = succeeded t).
  { apply (G es (v_init max num) []) with (s := s); trivial; [apply v_init_inv; trivial|intros _; reflexivity|intros X; discriminate]. }
  destruct (v_run_facts limit max num hash Hh Hmax0 Hmax Hnum es s t L E) as (gs & fly & can & H1 & H2 & H3 & H4 & H5 & H6 & H7 & H8 & H9 & H10 & H11 & _).
  pose proof (H11 St Ge C) as W. rewrite (H9 St W), app_nil_r in H2. rewrite (H7 W), app_nil_r in H4. rewrite H2, R. split; trivial. rewrite H4. apply (frames_stream max); trivial. congruence.
Qed.
Print Assumptions C72_graceful_close_flushes.

(** C72, as C53: while a write is in progress the block at the head of the ring holds exactly
    the bytes handed to the transport last, nothing was reported or handed over since ... *)
Theorem C72_memory_stable : forall limit max num hash es s t,
  (forall p, hash p < 2 ^ 32) -> 0 < max -> max < 2 ^ 60 -> (1 <= num)%nat -> vlegal limit hash (v_init max num) es -> v_run limit hash (v_init max num) es = Ok (s, t) -> v_writing s = true ->
  exists k t1 t2, s_front (v_q s) = Some (Some k) /\ t = t1 ++ OWrite (k_body k) :: t2 /\ reported t2 = [] /\ wire t2 = [] /\ k_used k = 0 /\ 0 < blen (k_body k) < 2 ^ 32.
Proof.
  intros limit max num hash es s t Hh Hmax0 Hmax Hnum L E W. destruct (v_run_facts limit max num hash Hh Hmax0 Hmax Hnum es s t L E) as (gs & fly & can & H1 & H2 & H3 & H4 & H5 & H6 & _).
  destruct (H6 W) as (_ & (gs' & ->) & (t1 & t2 & -> & R & Wi)). destruct (VQ_cons max num hash Hh Hmax0 Hmax Hnum _ _ _ H1) as (_ & k & Ek & Uz & Bo & Sz & B1 & B2 & _).
  exists k, t1, t2. rewrite Bo. split; trivial. split; trivial. split; trivial. split; trivial. split; trivial. split; [lia|exact B2].
Qed.
Print Assumptions C72_memory_stable.
(** ... and it stays at its address until the write completes. *)
Theorem C72_memory_stays : forall limit max num hash es s t e s' o,
  (forall p, hash p < 2 ^ 32) -> 0 < max -> max < 2 ^ 60 -> (1 <= num)%nat -> vlegal limit hash (v_init max num) es -> v_run limit hash (v_init max num) es = Ok (s, t) -> v_writing s = true ->
  vallowed s e -> match e with EDone _ _ _ _ => False | _ => True end -> v_step limit hash s e = Ok (s', o) ->
  v_writing s' = true /\ s_front (v_q s') = s_front (v_q s).
Proof.
  intros limit max num hash es s t e s' o Hh Hmax0 Hmax Hnum L E W A Ne Es. destruct (v_run_facts limit max num hash Hh Hmax0 Hmax Hnum es s t L E) as (gs & fly & can & H1 & H2 & H3 & H4 & H5 & H6 & _).
  destruct (H6 W) as (_ & (gs' & ->) & _). destruct e as [p ok1 ok2 uv|uv acts ok uv'|f|]; cbn [v_step vallowed] in *; [|contradiction| |destruct A as (_ & A & _); congruence].
  - split; [|exact (v_send_kept limit max num hash Hh Hmax0 Hmax Hnum s _ p uv s' o W H1 ltac:(discriminate) A Es)].
    destruct (v_send_writing limit max num hash Hh Hmax0 Hmax Hnum s _ p uv W H1 A) as (s1 & c & new & E1 & _ & _ & _ & (K & _) & _). rewrite E1 in Es. assert (s' = s1) by congruence. subst. congruence.
  - pose proof (v_disc_later s f) as D. assert (Y : v_disc s f = (s', o)) by congruence. rewrite Y in D. destruct D as ((D1 & _) & D2 & _). split; congruence.
Qed.
Print Assumptions C72_memory_stays.

(** C72: the area does not wear out: after any history, a connection that is idle takes and
    hands over any message that leaves 256 bytes of the area free. *)
Theorem C72_idle_send : forall limit max num hash es s t p,
  (forall p, hash p < 2 ^ 32) -> 0 < max -> max < 2 ^ 60 -> (1 <= num)%nat -> vlegal limit hash (v_init max num) es -> v_run limit hash (v_init max num) es = Ok (s, t) ->
  Forall writes_start es -> v_writing s = false -> v_st s = Connected -> p <> [] -> short p -> (limit = 0 \/ blen p <= limit) -> blen p + 256 <= max ->
  exists s' d, v_send limit hash s p 0 = Ok (s', [OWrite d; OSend p 0]) /\ frames_of hash [p] d.
Proof.
  intros limit max num hash es s t p Hh Hmax0 Hmax Hnum L E St W Cn Np Sp Li Ro. assert (Hm2 : max <= 2 ^ 62) by lia.
  pose proof (v_run_inv limit max num hash Hh Hmax0 Hmax Hnum es _ [] (v_init_inv max num hash Hnum) L) as R. rewrite E in R. cbn [app] in R. destruct R as (I & Fw & _).
  destruct I as ((gs & fly & can & H1 & _) & (Fa & _) & _). assert (NC : v_closing s = false) by (destruct (v_closing s) eqn:X; trivial; elim (Fa eq_refl); trivial).
  assert (gs = []) as -> by (apply (VQ_empty max num hash Hh Hmax0 Hmax Hnum (v_q s)); trivial; apply Fw; trivial; intros _; reflexivity).
  destruct (v_push_empty max num hash Hh Hmax0 Hmax Hnum (v_q s) p H1 Sp Np Ro) as (m & P & Q).
  unfold v_send. assert (Lt : (0 <? limit) && (limit <? blen p) = false).
  { destruct Li as [-> |Li]; [reflexivity|]. rewrite (proj2 (N.ltb_ge limit (blen p))) by exact Li. apply andb_false_r. }
  rewrite Lt, Cn. destruct p as [|z p0]; [congruence|]. rewrite P. change ((SUCCESS <? 0)%Z) with false. cbn iota.
  unfold v_try_all. destruct (v_try_spec max num hash Hh Hmax0 Hmax Hnum (S (room (v_q (vset_q s m)))) 0%Z (vset_q s m) _ Q W NC ltac:(lia)) as [(X & _)|(m' & g & gs' & X1 & _ & Qm & [[_ X]|[X _]])]; [discriminate| |congruence].
  rewrite X. eexists _, _. split; [reflexivity|].
  destruct (VQ_cons max num hash Hh Hmax0 Hmax Hnum _ _ _ Qm) as (_ & _ & _ & _ & _ & _ & _ & _ & Sg & Ng & _). destruct g as [|q g]; [congruence|]. cbn [concat app] in X1.
  injection X1 as -> X1. destruct g as [|y g]; [|discriminate]. apply (frames_stream max); trivial.
Qed.
Print Assumptions C72_idle_send.

Lemma v_sent_so_far limit max num hash es s t :
  (forall p, hash p < 2 ^ 32) -> 0 < max -> max < 2 ^ 60 -> (1 <= num)%nat -> vlegal limit hash (v_init max num) es -> v_run limit hash (v_init max num) es = Ok (s, t) ->
  exists sent waiting, accepted t = sent ++ waiting /\ frames_of hash sent (wire t) /\ Forall short (accepted t) /\
    (Forall writes_start es -> v_writing s = false -> ~ In OClose t \/ Forall gentle es -> waiting = []).
Proof.
  intros Hh Hmax0 Hmax Hnum L E. assert (Hm2 : max <= 2 ^ 62) by lia. destruct (v_run_facts limit max num hash Hh Hmax0 Hmax Hnum es s t L E) as (gs & fly & can & H1 & H2 & H3 & H4 & H5 & H6 & H7 & H8 & H9 & _).
  destruct (v_writing s) eqn:W.
  - destruct (H6 eq_refl) as (-> & (gs' & ->) & _). rewrite app_nil_r in H3. exists (succeeded t ++ fly), (concat gs'). split; [rewrite H2, H3; cbn [concat]; now rewrite <- app_assoc|].
    split; [|split; [trivial|discriminate]]. rewrite H4. apply (frames_stream max); trivial. rewrite H2, H3 in H5. cbn [concat] in H5. rewrite app_assoc in H5. now apply Forall_app in H5.
  - specialize (H7 eq_refl). subst fly. rewrite app_nil_r in H4. exists (succeeded t), (can ++ concat gs). split; [rewrite H2, H3; now rewrite <- app_assoc|]. split; [|split; trivial].
    + rewrite H4. apply (frames_stream max); trivial. rewrite H2, H3, <- app_assoc in H5. now apply Forall_app in H5.
    + intros X _ Y. destruct can as [|c can]; [exact (f_equal (@concat _) (H9 X eq_refl))|]. destruct H8 as [-> I]; [discriminate|]. destruct Y as [Y|Ge]; [contradiction|exfalso].
      destruct (C72_graceful_close_flushes limit max num hash es s t Hh Hmax0 Hmax Hnum L E X Ge I) as [_ S2]. cbn [concat] in H2. rewrite app_nil_r in H2. rewrite <- S2 in H2. rewrite H3 in H2.
      rewrite <- (app_nil_r (succeeded t)) in H2 at 1. apply app_inv_head in H2. discriminate.
Qed.
(** C72, as C54: both sides together.  Whatever the sender's schedule and however the stream is cut
    on the way, the receiver delivers exactly the first messages taken by the sender, in
    order, and nothing else; all of them once the transport has delivered everything and the
    sender is idle or was closed gently. *)
Theorem C72_end_to_end : forall limit max num hash es s t cfg ea sf hf rs fut,
  (forall p, hash p < 2 ^ 32) -> 0 < max -> max < 2 ^ 60 -> (1 <= num)%nat -> vlegal limit hash (v_init max num) es -> v_run limit hash (v_init max num) es = Ok (s, t) ->
  (forall m, In m (accepted t) -> (0 < c_max cfg -> 4 + blen m <= c_max cfg) /\ (0 < c_limit cfg -> blen m <= c_limit cfg)) ->
  legal cfg hash (rx_init cfg ea sf hf) rs -> healthy rs -> data_of rs ++ fut = wire t ->
  ea + agains rs <= c_eagain cfg -> sf + others_size rs <= c_size cfg -> hf + others_hash rs <= c_hash cfg ->
  exists s' k, rx_run cfg hash (rx_init cfg ea sf hf) rs = Fine (s', map (fun m => (0%Z, m)) (firstn k (accepted t))) /\ r_open s' = true /\
    (fut = [] -> Forall writes_start es -> v_writing s = false -> ~ In OClose t \/ Forall gentle es -> firstn k (accepted t) = accepted t).
Proof.
  intros limit max num hash es s t cfg ea sf hf rs fut Hh Hmax0 Hmax Hnum L E Hm Le He D A B C.
  destruct (v_sent_so_far limit max num hash es s t Hh Hmax0 Hmax Hnum L E) as (sent & waiting & Eq & St & Sh & Idle).
  assert (Hs : forall m, In m sent -> In m (accepted t)) by (intros m X; rewrite Eq; apply in_or_app; now left).
  unfold frames_of in St. set (items := map (fun m => (hash m, m)) sent) in *.
  assert (Nd : number (damaged hash) items = 0).
  { unfold items. clear. induction sent as [|m l IH]; [reflexivity|]. cbn [map]. rewrite number_cons, IH. unfold number, damaged. cbn [filter fst snd]. now rewrite N.eqb_refl. }
  assert (No : number (oversize (c_limit cfg)) items = 0).
  { unfold items. clear - Hm Hs. induction sent as [|m l IH]; [reflexivity|]. cbn [map]. rewrite number_cons, IH by (intros x X; apply Hs; now right).
    unfold number, oversize. cbn [filter snd]. destruct (Hm m) as (_ & H); [apply Hs; now left|].
    destruct (0 <? c_limit cfg) eqn:Z; cbn [andb]; [|reflexivity]. apply N.ltb_lt in Z. rewrite (proj2 (N.ltb_ge _ _)) by auto. reflexivity. }
  assert (Fi : Forall (fits cfg) items).
  { unfold items. apply Forall_map. apply Forall_forall. intros m X. split; cbn [snd]; [rewrite Forall_forall in Sh; apply Sh; auto|]. apply Hm; auto. }
  destruct (C12_damaged_frames_isolated cfg hash ea sf hf items (wire t) rs fut) as (s' & k & whole & rest & R & Op & K & _ & _ & _ & F); trivial; try (rewrite ?Nd, ?No; lia).
  unfold items in K. rewrite map_length in K.
  assert (Fk : firstn k (accepted t) = firstn k sent).
  { rewrite Eq, firstn_app. replace (k - length sent)%nat with O by lia. apply app_nil_r. }
  exists s', k. rewrite Fk. split; [|split; trivial].
  - rewrite R. do 2 f_equal. unfold items. rewrite <- firstn_map, <- firstn_map. f_equal. rewrite map_map. apply map_ext_in. intros m X. unfold expected. cbn [fst snd].
    destruct (Hm m (Hs _ X)) as (_ & H). unfold oversize, damaged. cbn [fst snd]. rewrite N.eqb_refl. destruct (0 <? c_limit cfg) eqn:Z; cbn [andb]; [|reflexivity]. apply N.ltb_lt in Z. rewrite (proj2 (N.ltb_ge _ _)) by auto. reflexivity.
  - intros X Ws W Cl. specialize (F X). unfold items in F. rewrite map_length in F. subst k. rewrite firstn_all. rewrite Eq.
    rewrite (Idle Ws W Cl). now rewrite app_nil_r.
Qed.
Print Assumptions C72_end_to_end.


(** Legality by computation. *)
Definition shortb (p : bytes) : bool := blen p <? 2 ^ 31.
Definition vallowedb (s : vx) (e : wev) : bool :=
  match e with
  | ESend p _ _ _ => shortb p
  | EDone _ acts _ _ => v_writing s && forallb (forallb (fun a => match a with ASend p _ => shortb p | ADisc _ => true end)) acts
  | EDisc _ => true
  | EClosed => v_closing s && negb (v_writing s) && match v_st s with Disconnected => false | _ => true end
  end.
Fixpoint vlegalb (limit : N) (hash : bytes -> N) (s : vx) (es : list wev) : bool :=
  match es with
  | [] => true
  | e :: r => vallowedb s e && match v_step limit hash s e with Ok (s', _) => vlegalb limit hash s' r | Crash => true end
  end.
Lemma vlegalb_ok limit hash es : forall s, vlegalb limit hash s es = true -> vlegal limit hash s es.
Proof.
  induction es as [|e es IH]; intros s E; cbn [vlegal vlegalb] in *; [exact I|]. apply andb_true_iff in E. destruct E as [E1 E2].
  split; [|destruct (v_step limit hash s e) as [[s' o]|]; auto].
  destruct e as [p ok1 ok2 uv|uv acts ok uv'|f|]; cbn [vallowed vallowedb] in *; [now apply N.ltb_lt| |exact I|].
  - apply andb_true_iff in E1. destruct E1 as [E1 E3]. split; trivial. apply Forall_forall. intros l Hl. rewrite forallb_forall in E3. specialize (E3 l Hl).
    apply Forall_forall. intros a Ha. rewrite forallb_forall in E3. specialize (E3 a Ha). destruct a as [p ok0|f]; [now apply N.ltb_lt|exact I].
  - apply andb_true_iff in E1. destruct E1 as [E1 E3]. apply andb_true_iff in E1. destruct E1 as [E1 E4]. split; trivial. split; [now apply negb_true_iff|]. destruct (v_st s); discriminate.
Qed.

(** A concrete run in an area of 928 bytes with at most 3 blocks.  While the second message
    is written the third is queued behind it and the fourth at the start of the area, before
    the block being written; a fifth is refused.  Merging then stops at the end of the area,
    so the third message goes out alone although the fourth waits; the fourth is merged with
    the next one. *)
Definition events3 : list wev :=
  [ESend (repeat 1 100) true true 0%Z; ESend [2] true true 0%Z; EDone 0%Z [] true 0%Z; ESend [3] true true 0%Z; ESend [4] true true 0%Z; ESend [5] true true 0%Z;
   EDone 0%Z [] true 0%Z; EDone 0%Z [[ASend [6] true]] true 0%Z; ESend [7] true true 0%Z; EDone 0%Z [] true 0%Z; EDone 0%Z [] true 0%Z; EDisc false; EClosed].
Definition sizes (t : list wout) : list N := flat_map (fun o => match o with OWrite d => [blen d] | _ => [] end) t.
Example ring_case : vlegal 262144 h1 (v_init 900 3) events3 /\ Forall writes_start events3 /\ Forall gentle events3 /\
  option_map (fun s => (v_writing s, map (sb_circ (s_buf (v_q s))) [1%nat; 2%nat; 3%nat]))
    match v_run 262144 h1 (v_init 900 3) (firstn 6 events3) with Ok (s, t) => Some s | Crash => None end = Some (true, [Some 336; Some 576; Some 0]) /\
  match v_run 262144 h1 (v_init 900 3) events3 with Ok (s, t) => Some (v_st s, v_writing s, accepted t, succeeded t, sizes t, nth 7 t OClosed, last (removelast t) OClosed) | Crash => None end =
    Some (Disconnected, false, [repeat 1 100; [2]; [3]; [4]; [6]; [7]], [repeat 1 100; [2]; [3]; [4]; [6]; [7]], [105; 6; 6; 12; 6], OSend [5] (-4), OClose).
Proof.
  split; [apply vlegalb_ok; vm_compute; reflexivity|].
  split; [repeat constructor|]. split; [repeat constructor|].
  split; vm_compute; reflexivity.
Qed.
