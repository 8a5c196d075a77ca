(** C73: the limits a node gives its stream channels fit together. *)
From Verif Require Import Base Vint VintSpec VintProof Mem MemSpec MemProof IoSpec IoRecv IoRecvSpec IoRecvProof PropIoRecv IoWrite IoWriteSpec IoWriteProof PropIoWrite
  IoWriteS IoWriteSSpec BufferSpec Buffer BufDynProof BufStaticProof BufStaticProof4 IoRing IoWriteSProof PropIoWriteS StreamConf.
Local Open Scope N_scope.
Ltac Zify.zify_post_hook ::= idtac.

(** Configurations without overflow: messages below 1 GiB, a send buffer below 2^60. *)
Definition sane (x : nconf) : Prop := n_msg x < 2 ^ 30 /\ n_size x < 2 ^ 60.

Lemma conf_values x : sane x -> i_recv_limit (stream_conf x) = n_msg x + 1024 /\ i_recv_max (stream_conf x) = 2 * n_msg x + 2048 /\
  i_send_limit (stream_conf x) = n_msg x + 1248 /\ i_send_max (stream_conf x) = n_size x /\ i_static (stream_conf x) = n_num x.
Proof.
  intros [M _]. assert (P : 2 ^ 30 + 2 ^ 30 + 4096 < two64) by reflexivity. unfold stream_conf, frame_header. cbn [i_recv_limit i_recv_max i_send_limit i_send_max i_static].
  change (padding_size (uvw + 4 + 16)) with 224. rewrite !wrap64_small by lia. split; [lia|]. split; [lia|]. split; [lia|]. auto.
Qed.

(** C73: the sender never fails, whatever area it uses, if memory for merging is there. *)
Theorem C73_never_fails : forall x hash es, sane x -> (forall p, hash p < 2 ^ 32) ->
  s_legal (stream_conf x) hash (sender (stream_conf x)) es -> Forall merge_memory es -> s_run (stream_conf x) hash (sender (stream_conf x)) es <> Crash.
Proof.
  intros x hash es S Hh L M E. destruct (conf_values x S) as (_ & _ & V3 & V4 & V5). destruct S as [_ S]. unfold sender in *. destruct ((0 <? i_send_max (stream_conf x)) && (0 <? i_static (stream_conf x))%nat) eqn:C; cbn [s_legal s_run] in *.
  - apply andb_true_iff in C. destruct C as [C1 C2]. apply N.ltb_lt in C1. apply Nat.ltb_lt in C2.
    destruct (v_run _ hash _ es) as [[v t]|] eqn:R; [discriminate|]. apply (C72_never_fails _ _ _ hash es Hh C1) in L; [contradiction|rewrite V4; exact S|exact C2].
  - destruct (w_run _ hash _ es) as [[w t]|] eqn:R; [discriminate|]. apply (C14_sender_safe_partial _ _ hash es Hh) in L; trivial; [contradiction|].
    rewrite V4. assert (2 ^ 60 < 2 ^ 62) by reflexivity. lia.
Qed.
Print Assumptions C73_never_fails.

(** C73: whatever a node sends on a stream connection, a node whose msg_size is not smaller
    receives in order and unchanged, however the stream is cut; none is lost, refused or
    a reason to close the connection; all of it once the sender is idle. *)
Theorem C73_reaches_peer : forall x y hash es s t ea sf hf rs fut, sane x -> sane y -> n_msg x <= n_msg y -> (forall p, hash p < 2 ^ 32) ->
  s_legal (stream_conf x) hash (sender (stream_conf x)) es -> s_run (stream_conf x) hash (sender (stream_conf x)) es = Ok (s, t) ->
  Forall (sendable x) (accepted t) ->
  legal (receiver (stream_conf y)) hash (rx_init (receiver (stream_conf y)) ea sf hf) rs -> healthy rs -> data_of rs ++ fut = wire t ->
  ea + agains rs <= 256 -> sf + others_size rs <= 10 -> hf + others_hash rs <= 10 ->
  exists s' k, rx_run (receiver (stream_conf y)) hash (rx_init (receiver (stream_conf y)) ea sf hf) rs = Fine (s', map (fun m => (0%Z, m)) (firstn k (accepted t))) /\
    r_open s' = true /\
    (fut = [] -> Forall writes_start es -> s_writing s = false -> ~ In OClose t \/ Forall gentle es -> firstn k (accepted t) = accepted t).
Proof.
  intros x y hash es s t ea sf hf rs fut Sx Sy XY Hh L E Fs Le He D A B C.
  destruct (conf_values x Sx) as (_ & _ & V3 & V4 & V5). destruct (conf_values y Sy) as (W1 & W2 & _).
  assert (Fit : forall m, In m (accepted t) -> (0 < c_max (receiver (stream_conf y)) -> 4 + blen m <= c_max (receiver (stream_conf y))) /\
    (0 < c_limit (receiver (stream_conf y)) -> blen m <= c_limit (receiver (stream_conf y)))).
  { intros m I. rewrite Forall_forall in Fs. specialize (Fs m I). unfold sendable, frame_header in Fs. cbn [receiver c_max c_limit]. rewrite W1, W2. lia. }
  destruct Sx as [_ S]. unfold sender in *. destruct ((0 <? i_send_max (stream_conf x)) && (0 <? i_static (stream_conf x))%nat) eqn:Z; cbn [s_legal s_run] in *.
  - apply andb_true_iff in Z. destruct Z as [C1 C2]. apply N.ltb_lt in C1. apply Nat.ltb_lt in C2.
    destruct (v_run _ hash _ es) as [[v t']|] eqn:R; [|discriminate]. injection E as <- <-. cbn [s_writing].
    apply (C72_end_to_end (i_send_limit (stream_conf x)) (i_send_max (stream_conf x)) (i_static (stream_conf x)) hash es v t' (receiver (stream_conf y)) ea sf hf rs fut Hh C1); rewrite ?V4; trivial.
  - destruct (w_run _ hash _ es) as [[w t']|] eqn:R; [|discriminate]. injection E as <- <-. cbn [s_writing].
    apply (C54_end_to_end (i_send_limit (stream_conf x)) (i_send_max (stream_conf x)) hash es w t' (receiver (stream_conf y)) ea sf hf rs fut Hh); trivial. rewrite V4. assert (2 ^ 60 < 2 ^ 62) by reflexivity. lia.
Qed.
Print Assumptions C73_reaches_peer.

Lemma idle_dynamic limit max hash es s t p : (forall p, hash p < 2 ^ 32) -> max <= 2 ^ 62 ->
  wlegal limit hash (w_init max) es -> w_run limit hash (w_init max) es = Ok (s, t) -> Forall writes_start es -> w_writing s = false -> w_st s = IoWrite.Connected ->
  p <> [] -> short p -> limit = 0 \/ blen p <= limit -> max = 0 \/ blen p + 256 <= max ->
  exists s' d, w_send limit hash s p true true 0 = Ok (s', [OWrite d; OSend p 0]) /\ frames_of hash [p] d.
Proof.
  intros Hh Hmax L E St W Cn Np Sp Li Ro.
  pose proof (IoWriteProof.run_inv limit max hash Hh Hmax es _ [] (IoWriteProof.init_inv max hash Hmax) L) as R. rewrite E in R. cbn [app] in R. destruct R as (I & Fw & _).
  destruct I as ((gs & fly & can & H1 & _) & (Fa & _) & _). assert (NC : w_closing s = false) by (destruct (w_closing s) eqn:X; trivial; elim (Fa eq_refl); trivial).
  assert (Em : d_list (w_q s) = []) by (apply Fw; trivial; intros _; reflexivity).
  assert (gs = []) as -> by exact (IoWriteProof.Q_nil max hash _ _ H1 Em).
  destruct (d_push_back true (w_q s) (block_of hash p)) as [c m] eqn:P.
  assert (X : c = SUCCESS).
  { unfold d_push_back in P. destruct H1 as [_ (N1 & N2 & N3)]. unfold number_blocked in P. rewrite N1 in P. cbn [N.ltb N.compare andb] in P.
    assert (B : size_blocked (d_lim (w_q s)) (N.of_nat (length (block_of hash p))) = false).
    { unfold size_blocked. rewrite N2. destruct Ro as [-> |Ro]; [reflexivity|]. apply andb_false_iff. right. apply N.ltb_ge.
      assert (M : 0 < max) by lia. destruct (N3 M) as [N4 _]. rewrite Em in N4. cbn [IoWriteProof.total fold_right] in N4. rewrite N4, N.add_0_l.
      rewrite IoWriteProof.block_of_frame, app_length, repeat_length, Nat2N.inj_add, N2Nat.id. fold (blen (frame hash p)). pose proof (IoWriteProof.frame_len max hash Hh Hmax p Sp). unfold uvw.
      assert (2 ^ 62 + 4096 < two64) by reflexivity. rewrite wrap64_small by lia. lia. }
    rewrite B in P. cbn [d_malloc] in P. congruence. }
  destruct (IoWriteProof.push_group max hash Hh Hmax (w_q s) [] p true c m H1 Sp Np P) as [(_ & Q' & _)|(_ & [Y|Y])]; [|subst c; discriminate Y..]. cbn [app] in Q'. subst c.
  unfold w_send. assert (Lt : (0 <? limit) && (limit <? blen p) = false).
  { destruct Li as [-> |Li]; [reflexivity|]. rewrite (proj2 (N.ltb_ge limit (blen p))) by exact Li. apply andb_false_r. }
  rewrite Lt, Cn. destruct p as [|z p0]; [congruence|]. rewrite P. change ((SUCCESS <? 0)%Z) with false. cbn iota.
  unfold try_write_all. destruct (IoWriteProof.try_write_spec max hash Hh Hmax (S (length (d_list (w_q (set_q s m))))) true 0%Z (set_q s m) _ Q' W NC ltac:(lia)) as [(_ & X & _)|[(X & _)|(m' & g & gs' & X1 & _ & Qm & [[_ X]|[X _]])]]; try discriminate; try congruence.
  rewrite X. eexists _, _. split; [reflexivity|].
  destruct Qm as [Qf _]. inversion Qf as [|b ? bs ? G Gs Y1 Y2]; subst. destruct G as (Ng & _ & _ & _ & _ & Sg). destruct g as [|q g]; [congruence|]. cbn [concat app] in X1.
  injection X1 as -> X1. destruct g as [|y g]; [|discriminate]. apply (IoWriteProof.frames_stream max); trivial.
Qed.

(** C73: an idle connection takes every message the node may send, if the send buffer has
    room for one, and hands it to the transport at once. *)
Theorem C73_idle_accepts : forall x hash es s t p, sane x -> (forall p, hash p < 2 ^ 32) ->
  s_legal (stream_conf x) hash (sender (stream_conf x)) es -> s_run (stream_conf x) hash (sender (stream_conf x)) es = Ok (s, t) ->
  Forall writes_start es -> s_writing s = false -> s_st s = IoWrite.Connected -> p <> [] -> sendable x p -> n_size x = 0 \/ n_msg x + 1280 <= n_size x ->
  exists s' d, s_run (stream_conf x) hash s [ESend p true true 0] = Ok (s', [OWrite d; OSend p 0]) /\ frames_of hash [p] d.
Proof.
  intros x hash es s t p Sx Hh L E St W Cn Np Se Ro. destruct (conf_values x Sx) as (_ & _ & V3 & V4 & V5). destruct Sx as [S1 S2]. unfold sendable, frame_header in Se.
  assert (Sp : short p) by (unfold short; assert (2 ^ 30 + 1024 < 2 ^ 31) by reflexivity; lia).
  unfold sender in *. destruct ((0 <? i_send_max (stream_conf x)) && (0 <? i_static (stream_conf x))%nat) eqn:Z; cbn [s_legal s_run] in *.
  - apply andb_true_iff in Z. destruct Z as [C1 C2]. apply N.ltb_lt in C1. apply Nat.ltb_lt in C2.
    destruct (v_run _ hash (v_init _ _) es) as [[v t']|] eqn:R; [|discriminate]. injection E as <- <-. cbn [s_writing s_st] in *.
    destruct (C72_idle_send (i_send_limit (stream_conf x)) (i_send_max (stream_conf x)) (i_static (stream_conf x)) hash es v t' p Hh C1) as (s' & d & X & Y); trivial; try (rewrite ?V3, ?V4 in *; lia).
    exists (SFix s'), d. split; [|exact Y]. cbn [s_run v_run v_step]. rewrite X. reflexivity.
  - destruct (w_run _ hash (w_init _) es) as [[w t']|] eqn:R; [|discriminate]. injection E as <- <-. cbn [s_writing s_st] in *.
    destruct (idle_dynamic (i_send_limit (stream_conf x)) (i_send_max (stream_conf x)) hash es w t' p Hh) as (s' & d & X & Y); trivial; try (rewrite ?V3, ?V4 in *; try (assert (2 ^ 60 < 2 ^ 62) by reflexivity); lia).
    exists (SDyn s'), d. split; [|exact Y]. cbn [s_run w_run w_step]. rewrite X. reflexivity.
Qed.
Print Assumptions C73_idle_accepts.

(** C73 needs a peer whose msg_size is not smaller: one message that the sending node
    accepts makes a node with a smaller msg_size drop the connection. *)
Definition wide : nconf := {| n_msg := 65536; n_size := 2097152; n_num := 0 |}.
Definition narrow : nconf := {| n_msg := 1024; n_size := 2097152; n_num := 0 |}.
Definition large : bytes := repeat 7 5000.
Definition seven : bytes -> N := fun _ => 7.
Definition large_wire : bytes := word_bytes 4 7 ++ [167; 8] ++ large.
Theorem C73_smaller_peer_refuted : exists x y hash p s t d fut s' o, sane x /\ sane y /\ (forall p, hash p < 2 ^ 32) /\ sendable x p /\
  s_legal (stream_conf x) hash (sender (stream_conf x)) [ESend p true true 0] /\
  s_run (stream_conf x) hash (sender (stream_conf x)) [ESend p true true 0] = Ok (s, t) /\ accepted t = [p] /\ d ++ fut = wire t /\
  legal (receiver (stream_conf y)) hash (rx_init (receiver (stream_conf y)) 0 0 0) [EData d true] /\
  rx_run (receiver (stream_conf y)) hash (rx_init (receiver (stream_conf y)) 0 0 0) [EData d true] = Fine (s', o) /\ r_open s' = false /\ ~ In (0%Z, p) o.
Proof.
  destruct (s_run (stream_conf wide) seven (sender (stream_conf wide)) [ESend large true true 0]) as [[s t]|] eqn:E; [|exfalso; revert E; vm_compute; discriminate].
  assert (T : t = [OWrite large_wire; OSend large 0]).
  { apply (f_equal (fun o => match o with Ok (_, t) => t | Crash => [] end)) in E. cbv beta iota in E. rewrite <- E. vm_compute. reflexivity. }
  destruct (rx_run (receiver (stream_conf narrow)) seven (rx_init (receiver (stream_conf narrow)) 0 0 0) [EData (firstn 3072 large_wire) true]) as [[s' o]| |] eqn:R;
    [|exfalso; apply (f_equal (fun o => match o with Fine _ => true | _ => false end)) in R; vm_compute in R; discriminate..].
  exists wide, narrow, seven, large, s, t, (firstn 3072 large_wire), (skipn 3072 large_wire), s', o.
  split; [split; reflexivity|]. split; [split; reflexivity|]. split; [reflexivity|]. split; [vm_compute; discriminate|]. split.
  { split; [reflexivity|]. destruct (w_step _ _ _ _) as [[? ?]|]; exact I. }
  split; [exact E|]. split; [rewrite T; reflexivity|]. split; [rewrite T, firstn_skipn; cbn [wire flat_map]; now rewrite app_nil_r|]. split.
  { split; [|destruct (rx_step _ _ _ _) as [[? ?]| |]; exact I]. vm_compute. split; [reflexivity|discriminate]. }
  split; [exact R|]. split.
  - apply (f_equal (fun o => match o with Fine (s, _) => r_open s | _ => true end)) in R. cbv beta iota in R. rewrite <- R. vm_compute. reflexivity.
  - apply (f_equal (fun o => match o with Fine (_, o) => forallb (fun x => negb (fst x =? 0)%Z) o | _ => false end)) in R. cbv beta iota in R.
    intros X. assert (F : forallb (fun x : cb => negb (fst x =? 0)%Z) o = true) by (etransitivity; [symmetry; exact R|vm_compute; reflexivity]). rewrite forallb_forall in F. specialize (F _ X). discriminate.
Qed.
Print Assumptions C73_smaller_peer_refuted.

(** The hypotheses are met: the default configuration, and one with a fixed area of four
    blocks, send messages of the largest size to a node with the same msg_size. *)
Definition fixed_area : nconf := {| n_msg := 64; n_size := 8192; n_num := 4 |}.
Definition full (x : nconf) : bytes := repeat 9 (N.to_nat (n_msg x + frame_header)).
Definition two_events (x : nconf) : list wev := [ESend (full x) true true 0; ESend [1; 2] true true 0; EDone 0%Z [] true 0%Z; EDone 0%Z [] true 0%Z].
Definition case (x : nconf) : Prop := sane x /\ n_msg x + 1280 <= n_size x /\ sendable x (full x) /\ full x <> [] /\
  s_legal (stream_conf x) seven (sender (stream_conf x)) (two_events x) /\ Forall writes_start (two_events x) /\ Forall merge_memory (two_events x) /\ exists s t,
  s_run (stream_conf x) seven (sender (stream_conf x)) (two_events x) = Ok (s, t) /\ s_writing s = false /\ s_st s = IoWrite.Connected /\ accepted t = [full x; [1; 2]].
Example fixed_case : case fixed_area /\ exists v, sender (stream_conf fixed_area) = SFix v.
Proof.
  split; [|eexists; reflexivity].
  split; [split; reflexivity|]. split; [vm_compute; discriminate|]. split; [vm_compute; discriminate|]. split; [discriminate|]. split.
  { change (sender (stream_conf fixed_area)) with (SFix (v_init 8192 4)). apply vlegalb_ok. vm_compute. reflexivity. }
  split; [repeat constructor|]. split; [repeat constructor|].
  destruct (s_run (stream_conf fixed_area) seven (sender (stream_conf fixed_area)) (two_events fixed_area)) as [[s t]|] eqn:E; [|exfalso; revert E; vm_compute; discriminate].
  exists s, t. split; [reflexivity|]. apply (f_equal (fun o => match o with Ok (s, t) => (s_writing s, s_st s, accepted t) | Crash => (true, Disconnected, []) end)) in E.
  cbv beta iota in E. assert (X : (s_writing s, s_st s, accepted t) = (false, IoWrite.Connected, [full fixed_area; [1; 2]])) by (rewrite <- E; vm_compute; reflexivity).
  apply pair_equal_spec in X. destruct X as [X Z]. apply pair_equal_spec in X. destruct X as [X Y]. auto.
Qed.
Example default_sane : sane default_nconf /\ n_msg default_nconf + 1280 <= n_size default_nconf /\ exists w, sender (stream_conf default_nconf) = SDyn w.
Proof. split; [split; reflexivity|]. split; [vm_compute; discriminate|]. eexists. reflexivity. Qed.
