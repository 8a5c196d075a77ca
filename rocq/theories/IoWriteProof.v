(** Proofs about the sender: the queue holds groups of whole frames. *)
From Verif Require Import Base BufferSpec Buffer Vint VintSpec VintProof Mem MemSpec MemProof IoSpec IoRecvProof IoWrite IoWriteSpec.
Local Open Scope N_scope.
Ltac Zify.zify_post_hook ::= idtac.

Section W.
Variables (limit max : N) (hash : bytes -> N).
Hypothesis Hh : forall p, hash p < 2 ^ 32.
Hypothesis Hmax : max <= 2 ^ 62.

Definition enc (p : bytes) : bytes := let (vl, v) := write_vint (blen p) (repeat 0 16) in firstn vl v.
Definition frame (p : bytes) : bytes := word_bytes 4 (hash p) ++ enc p ++ p.
Definition frames (ms : list bytes) : bytes := flat_map frame ms.

Lemma block_of_frame p : block_of hash p = repeat 0 (N.to_nat uvw) ++ frame p.
Proof. unfold block_of, frame, enc. destruct (write_vint (blen p) (repeat 0 16)). reflexivity. Qed.
Lemma enc_ok p : short p -> is_encoding (blen p) (enc p) /\ (1 <= length (enc p) <= 10)%nat.
Proof.
  intros S. unfold short in S. assert (B : blen p < two64) by (change two64 with (2 ^ 64); assert (2 ^ 31 < 2 ^ 64) by reflexivity; lia).
  pose proof (vint_len_max _ B) as L. assert (1 <= vint_len (blen p))%nat by (unfold vint_len; lia).
  destruct (write_vint_fits (blen p) (repeat 0 16)) as (e & En & W); [rewrite repeat_length; lia|].
  unfold enc. rewrite W, firstn_app, <- (proj1 En), firstn_all, Nat.sub_diag, firstn_O, app_nil_r. split; trivial. rewrite (proj1 En). lia.
Qed.
Lemma frame_ok p : short p -> is_frame (hash p) p (frame p).
Proof. intros S. exists (enc p). split; [apply enc_ok; trivial|]. unfold frame. now rewrite <- le_word. Qed.
Lemma frame_len p : short p -> 5 <= blen (frame p) /\ blen (frame p) <= 14 + blen p.
Proof.
  intros S. destruct (enc_ok p S) as [_ L]. unfold frame. rewrite !blen_app.
  assert (blen (word_bytes 4 (hash p)) = 4) by (unfold blen; rewrite word_bytes_length; reflexivity). unfold blen in *. lia.
Qed.
Lemma frames_stream ms : Forall short ms -> frames_of hash ms (frames ms).
Proof. induction 1 as [|p ms S F IH]; [constructor|]. unfold frames_of, frames in *. cbn [map flat_map]. constructor; trivial. now apply frame_ok. Qed.

Lemma block_msgs_frames ms : Forall short ms -> forall fuel, (length (frames ms) <= fuel)%nat -> block_msgs fuel (frames ms) = Some ms.
Proof.
  induction 1 as [|p ms S F IH]; intros fuel L; [destruct fuel; reflexivity|].
  assert (B : blen p < two64) by (unfold short in S; change two64 with (2 ^ 64); assert (2 ^ 31 < 2 ^ 64) by reflexivity; lia).
  destruct (enc_ok p S) as [En [L1 L2]]. destruct (encoding_reads _ _ B En) as (_ & _ & Rd).
  change (frames (p :: ms)) with (frame p ++ frames ms) in *. rewrite app_length in L.
  pose proof (frame_len p S) as [F5 _]. unfold blen in F5.
  destruct fuel as [|f]; [lia|].
  assert (Sh : frame p ++ frames ms = word_bytes 4 (hash p) ++ enc p ++ p ++ frames ms) by (unfold frame; now rewrite <- !app_assoc).
  assert (W4 : length (word_bytes 4 (hash p)) = 4%nat) by apply word_bytes_length.
  set (d := frame p ++ frames ms) in *. destruct d as [|x d0] eqn:Ed; [exfalso; apply (f_equal (@length _)) in Ed; unfold d in Ed; rewrite app_length in Ed; cbn [length] in Ed; lia|].
  cbn [block_msgs]. rewrite Sh.
  assert (Lb : blen (word_bytes 4 (hash p) ++ enc p ++ p ++ frames ms) = 4 + blen (enc p) + blen p + blen (frames ms)) by (rewrite !blen_app; unfold blen at 1; rewrite W4; lia).
  rewrite Lb. rewrite (proj2 (N.ltb_ge _ _)) by lia.
  rewrite skipn_app, W4, skipn_all2, Nat.sub_diag, skipn_O by lia. cbn [app]. rewrite Rd.
  rewrite (proj2 (Nat.eqb_neq _ _)) by lia. cbn [orb].
  assert (Sm : 4 + N.of_nat (length (enc p)) + blen p < two64) by (unfold short in S; change two64 with (2 ^ 64); assert (2 ^ 31 + 100 < 2 ^ 64) by reflexivity; lia).
  rewrite (wrap64_small _ Sm), (proj2 (N.leb_gt _ _) Sm), (proj2 (N.ltb_ge _ _)) by (unfold blen in *; lia). cbn [orb].
  assert (Ar : skipn (4 + length (enc p)) (word_bytes 4 (hash p) ++ enc p ++ p ++ frames ms) = p ++ frames ms).
  { rewrite app_assoc, skipn_app, skipn_all2 by (rewrite app_length; lia). rewrite app_length, W4, Nat.sub_diag. reflexivity. }
  cbv zeta. rewrite Ar.
  rewrite (skipn_app _ p), (firstn_app _ p). unfold blen. rewrite Nat2N.id, skipn_all, firstn_all, Nat.sub_diag, skipn_O, firstn_O, app_nil_r. cbn [app].
  rewrite IH; [reflexivity|]. lia.
Qed.

(** ** Groups *)
Definition total (l : list dblock) : N := fold_right (fun b n => d_size b + n) 0 l.
Definition gb (b : dblock) (ms : list bytes) : Prop :=
  ms <> [] /\ d_used b = 0 /\ d_size b = blen (d_bytes b) /\ (exists j, length j = N.to_nat uvw /\ d_bytes b = j ++ frames ms) /\
  blen (frames ms) < 2 ^ 32 /\ Forall short ms.
Definition lim_ok (l : list dblock) (x : Buffer.limit) : Prop :=
  limit_number x = 0 /\ limit_size x = max /\ (0 < max -> cost_size x = total l /\ total l <= max).
Definition Q (m : dmgr) (gs : list (list bytes)) : Prop := Forall2 gb (d_list m) gs /\ lim_ok (d_list m) (d_lim m).

Lemma gb_body b ms : gb b ms -> body b = frames ms /\ d_size b = uvw + blen (frames ms) /\ 5 <= blen (frames ms) /\ d_size b < two64 /\ d_left b = d_size b.
Proof.
  intros (N & U & Sz & (j & Lj & E) & B & F). unfold body, d_left. rewrite U, N.sub_0_r, Sz, E, blen_app, skipn_app, <- Lj, skipn_all, Nat.sub_diag, skipn_O.
  assert (Bj : blen j = uvw) by (unfold blen; rewrite Lj; reflexivity). rewrite Bj. split; [reflexivity|]. split; trivial. split.
  - destruct ms as [|p ms]; [congruence|]. inversion F; subst. change (frames (p :: ms)) with (frame p ++ frames ms). rewrite blen_app. pose proof (frame_len p H1). lia.
  - split; trivial. unfold uvw. change two64 with (2 ^ 64). assert (192 + 2 ^ 32 < 2 ^ 64) by reflexivity. lia.
Qed.

Lemma pop_group m b r ms gs s : d_list m = b :: r -> Q m (ms :: gs) -> s = d_size b ->
  exists m', d_pop_front m s true = (SUCCESS, m') /\ d_list m' = r /\ Q m' gs.
Proof.
  intros E [F L] ->. rewrite E in F, L. inversion F as [|? ? ? ? G F']; subst. destruct (gb_body _ _ G) as (_ & _ & _ & S & Le).
  unfold d_pop_front. rewrite E. unfold d_pop_block. rewrite Le, N.ltb_irrefl. unfold d_pop. pose proof (proj1 (proj2 G)) as U. rewrite U, N.add_0_l, (wrap64_small _ S), N.ltb_irrefl.
  cbn [andb d_left d_size d_used]. unfold d_left. cbn [d_size d_used]. rewrite N.sub_diag. cbn [N.leb N.compare andb].
  eexists. split; [reflexivity|]. split; [reflexivity|]. split; cbn [d_list d_lim]; trivial. destruct L as (L1 & L2 & L3).
  unfold fix_limit. destruct r as [|b' r]; split; cbn [limit_number limit_size cost_size drop_one]; trivial; split; trivial; intros M; destruct (L3 M) as [L4 L5].
  - cbn [total fold_right]. lia.
  - change (total (b :: b' :: r)) with (d_size b + total (b' :: r)) in *. rewrite L4, (proj2 (N.leb_le _ _)) by lia. lia.
Qed.

Lemma cancel_spec fuel : forall m gs, Q m gs -> (length (d_list m) <= fuel)%nat ->
  exists m', cancel fuel m = Ok (m', map (fun p => ODone UV_ECANCELED E_CLOSING p) (concat gs)) /\ Q m' [].
Proof.
  induction fuel as [|f IH]; intros m gs H L.
  - destruct (d_list m) as [|b r] eqn:E; [|cbn in L; lia]. destruct H as [F Lm]. rewrite E in F. inversion F; subst. exists m. split; [unfold cancel; rewrite E; reflexivity|].
    split; rewrite E; [constructor|]. now rewrite E in Lm.
  - destruct (d_list m) as [|b r] eqn:E.
    + destruct H as [F Lm]. rewrite E in F. inversion F; subst. exists m. split; [cbn [cancel]; rewrite E; reflexivity|]. split; rewrite E; [constructor|]. now rewrite E in Lm.
    + destruct gs as [|ms gs]; [destruct H as [F _]; rewrite E in F; inversion F|].
      assert (G : gb b ms) by (destruct H as [F _]; rewrite E in F; inversion F; trivial).
      destruct (pop_group m b r ms gs _ E H eq_refl) as (m1 & P & P1 & P2). destruct (gb_body _ _ G) as (B1 & B2 & B3 & B4 & B5).
      destruct (IH m1 gs P2) as (m' & C & C'); [rewrite P1; cbn in L; lia|].
      exists m'. split; trivial. cbn [cancel]. rewrite E, (proj2 (N.ltb_ge _ _)) by lia. rewrite B1, block_msgs_frames by (trivial; apply G). rewrite P. cbn [snd]. rewrite C.
      cbn [concat]. now rewrite map_app.
Qed.

Lemma merge_loop_spec fuel : forall m gs avail acc, Q m gs -> (length (d_list m) <= fuel)%nat -> avail + blen acc = merge_len ->
  exists m' gs1 gs2, merge_loop fuel m avail acc = Ok (m', acc ++ frames (concat gs1)) /\ gs = gs1 ++ gs2 /\ Q m' gs2 /\ blen (acc ++ frames (concat gs1)) <= merge_len /\
    total (d_list m') + uvw * N.of_nat (length gs1) + blen (frames (concat gs1)) = total (d_list m) /\
    (forall b r, d_list m = b :: r -> d_size b <= avail -> gs1 <> []).
Proof.
  induction fuel as [|f IH]; intros m gs avail acc H L A.
  - destruct (d_list m) as [|b r] eqn:E; [|cbn in L; lia]. exists m, [], gs. unfold merge_loop. rewrite E. cbn [concat frames flat_map app length]. rewrite app_nil_r.
    split; trivial. split; trivial. split; trivial. split; [lia|]. split; [unfold blen; cbn [length total fold_right]; lia|]. intros; congruence.
  - destruct (d_list m) as [|b r] eqn:E.
    + exists m, [], gs. cbn [merge_loop]. rewrite E. cbn [concat frames flat_map app length]. rewrite app_nil_r.
      split; trivial. split; trivial. split; trivial. split; [lia|]. split; [unfold blen; cbn [length total fold_right]; lia|]. intros; congruence.
    + destruct gs as [|ms gs]; [destruct H as [F _]; rewrite E in F; inversion F|].
      assert (G : gb b ms) by (destruct H as [F _]; rewrite E in F; inversion F; trivial).
      destruct (pop_group m b r ms gs _ E H eq_refl) as (m1 & P & P1 & P2). destruct (gb_body _ _ G) as (B1 & B2 & B3 & B4 & B5).
      cbn [merge_loop]. rewrite E. destruct ((avail =? 0) || (avail <? d_size b)) eqn:Av.
      * exists m, [], (ms :: gs). cbn [concat frames flat_map app length]. rewrite app_nil_r. split; trivial. split; trivial. split; trivial. split; [lia|].
        rewrite E. split; [unfold blen; cbn [length]; lia|]. intros b' r' E' Sz. assert (b' = b) by congruence. subst b'. exfalso.
        apply orb_true_iff in Av. destruct Av as [Av|Av]; [apply N.eqb_eq in Av; unfold uvw in *; lia|apply N.ltb_lt in Av; lia].
      * apply orb_false_elim in Av. destruct Av as [_ Av]. apply N.ltb_ge in Av. rewrite (proj2 (N.ltb_ge _ _)) by lia. rewrite B1, blen_app, (proj2 (N.ltb_ge _ _)) by (unfold uvw in *; lia).
        rewrite P. cbn [snd]. destruct (IH m1 gs (avail - (d_size b - uvw)) (acc ++ frames ms) P2) as (m' & gs1 & gs2 & I1 & I2 & I3 & I4 & I5 & I6).
        { rewrite P1. cbn in L. lia. } { rewrite blen_app. unfold uvw in *. lia. }
        exists m', (ms :: gs1), gs2. cbn [concat]. unfold frames in *. rewrite flat_map_app, app_assoc. split; trivial. split; [cbn [app]; congruence|]. split; trivial. split; trivial.
        split; [|congruence]. rewrite P1 in I5. change (total (b :: r)) with (d_size b + total r). rewrite blen_app. cbn [length]. rewrite Nat2N.inj_succ. lia.
Qed.

Lemma merge_spec m gs : Q m gs -> gs <> [] -> exists m' gs', merge true m = Ok m' /\ Q m' gs' /\ gs' <> [] /\ concat gs' = concat gs.
Proof.
  intros H N. destruct gs as [|ms gs]; [congruence|]. destruct (d_list m) as [|b r] eqn:E; [destruct H as [F _]; rewrite E in F; inversion F|].
  unfold merge. rewrite E. destruct ((1 <? cost_number (d_lim m)) && (d_size b <=? small_size)) eqn:C.
  2: { exists m, (ms :: gs). auto. }
  apply andb_true_iff in C. destruct C as [_ C]. apply N.leb_le in C.
  destruct (merge_loop_spec (length (d_list m)) m (ms :: gs) merge_len [] H (le_n _)) as (m1 & gs1 & gs2 & I1 & I2 & I3 & I4 & I5 & I6); [reflexivity|].
  rewrite E in I1. rewrite I1. cbn [app] in *.
  assert (N1 : gs1 <> []) by (apply (I6 b r E); unfold small_size, merge_len, uvw in *; lia).
  assert (Lb : blen (repeat 0 (N.to_nat uvw) ++ frames (concat gs1)) = uvw + blen (frames (concat gs1))) by (rewrite blen_app; unfold blen at 1; rewrite repeat_length; reflexivity).
  assert (G1 : 1 <= N.of_nat (length gs1)) by (destruct gs1; [congruence|cbn [length]; lia]).
  destruct H as [HF HL]. destruct I3 as [IF IL]. destruct HL as (H1 & H2 & H3). destruct IL as (J1 & J2 & J3).
  unfold d_push_front. fold (blen (repeat 0 (N.to_nat uvw) ++ frames (concat gs1))). unfold number_blocked, size_blocked. rewrite J1, J2, Lb. cbn [N.ltb N.compare andb].
  assert (Sb : (0 <? max) && (max <? wrap64 (cost_size (d_lim m1) + (uvw + blen (frames (concat gs1))))) = false).
  { destruct (N.ltb_spec 0 max) as [M|M]; [|reflexivity]. cbn [andb]. destruct (H3 M) as [H4 H5]. destruct (J3 M) as [J4 J5]. apply N.ltb_ge. rewrite J4.
    rewrite wrap64_small; [unfold uvw in *; lia|]. change two64 with (2 ^ 64). assert (2 ^ 62 < 2 ^ 64) by reflexivity. unfold uvw in *. lia. }
  rewrite Sb. cbn [d_malloc]. change ((SUCCESS =? SUCCESS)%Z) with true. cbn iota.
  eexists _, (concat gs1 :: gs2). split; [reflexivity|]. split; [split|split]; cbn [d_list d_lim].
  - constructor; [|trivial]. rewrite I2 in HF. clear IF. assert (Sh : Forall short (concat gs1)).
    { apply Forall2_app_inv_r in HF. destruct HF as (l1 & l2 & HF & _ & _). clear - HF. induction HF as [|x y l l' G F IH]; [constructor|]. cbn [concat]. apply Forall_app. split; [apply G|trivial]. }
    split; [|split; [|split; [|split; [|split]]]]; cbn [d_used d_size d_bytes]; trivial.
    + destruct gs1 as [|g gs1]; [congruence|]. cbn [concat]. intros Em. apply app_eq_nil in Em. destruct Em as [-> _]. cbn [app] in HF. inversion HF as [|x y l1 l2 G]; subst. exact (proj1 G eq_refl).
    + exists (repeat 0 (N.to_nat uvw)). rewrite repeat_length. auto.
    + assert (merge_len < 2 ^ 32) by reflexivity. lia.
  - split; [|split]; cbn [charge limit_number limit_size cost_size]; trivial. intros M. destruct (H3 M) as [H4 H5]. destruct (J3 M) as [J4 J5]. rewrite J4.
    unfold total at 2 3. cbn [fold_right d_size]. fold (total (d_list m1)). rewrite <- Lb in *. unfold blen in Lb |- *.
    rewrite wrap64_small; [|change two64 with (2 ^ 64); assert (2 ^ 62 < 2 ^ 64) by reflexivity; unfold uvw, blen in *; lia]. unfold uvw, blen in *. lia.
  - congruence.
  - rewrite I2, concat_app. reflexivity.
Qed.

Lemma merge_false m gs : Q m gs -> gs <> [] -> merge false m = Crash \/ merge false m = Ok m.
Proof.
  intros H N. destruct gs as [|ms gs]; [congruence|]. destruct (d_list m) as [|b r] eqn:E; [destruct H as [F _]; rewrite E in F; inversion F|].
  unfold merge. rewrite E. destruct ((1 <? cost_number (d_lim m)) && (d_size b <=? small_size)) eqn:C; [|auto].
  destruct (merge_loop (length (b :: r)) m merge_len []) as [[m1 acc]|]; [|auto]. left. unfold d_push_front. destruct (number_blocked (d_lim m1)); [reflexivity|].
  destruct (size_blocked (d_lim m1) _); reflexivity.
Qed.

Lemma try_write_spec fuel ok uv s gs : Q (w_q s) gs -> w_writing s = false -> w_closing s = false -> (0 < fuel)%nat ->
  try_write fuel ok uv s = Crash /\ ok = false /\ gs <> [] \/
  gs = [] /\ try_write fuel ok uv s = Ok (s, SUCCESS, []) \/
  exists m g gs', concat (g :: gs') = concat gs /\ gs <> [] /\ Q m (g :: gs') /\
    (uv = 0%Z /\ try_write fuel ok uv s = Ok (set_writing (set_q s m) true, SUCCESS, [OWrite (frames g)]) \/
     uv <> 0%Z /\ try_write fuel ok uv s = Ok (set_q s m, E_WRITE_FAILED, [])).
Proof.
  intros H W C Fu. destruct gs as [|g0 gs0].
  { right. left. split; trivial. destruct H as [F _]. inversion F as [E|]. destruct fuel; cbn [try_write]; rewrite W, <- E; reflexivity. }
  assert (Ne : g0 :: gs0 <> []) by congruence. set (gs := g0 :: gs0) in *.
  assert (D : exists b r, d_list (w_q s) = b :: r) by (destruct H as [F _]; inversion F; eauto). destruct D as (b0 & r0 & E0).
  destruct fuel as [|f]; [lia|]. cbn [try_write]. rewrite W, E0, C.
  assert (Mg : merge ok (w_q s) = Crash /\ ok = false \/ exists m gs', merge ok (w_q s) = Ok m /\ Q m gs' /\ gs' <> [] /\ concat gs' = concat gs).
  { destruct ok; [right; apply merge_spec; trivial|]. destruct (merge_false _ _ H Ne) as [M|M]; [auto|]. right. exists (w_q s), gs. auto. }
  destruct Mg as [[-> ->]|(m & gs' & -> & Qm & Nm & Cm)]; [left; auto|]. right. right.
  destruct gs' as [|g gs']; [congruence|]. exists m, g, gs'. split; trivial. split; trivial. split; trivial.
  destruct (d_list m) as [|b r] eqn:E; [destruct Qm as [F _]; rewrite E in F; inversion F|].
  assert (G : gb b g) by (destruct Qm as [F _]; rewrite E in F; inversion F; trivial). destruct (gb_body _ _ G) as (B1 & B2 & B3 & B4 & B5).
  rewrite (proj2 (N.leb_gt _ _)) by lia. destruct (Z.eqb_spec uv 0) as [->|U]; [left|right; auto]. split; trivial.
  rewrite B1, B2, N.add_comm, N.add_sub, N.mod_small by apply G. unfold blen. now rewrite handed_all.
Qed.

Lemma push_group m gs p ok c m' : Q m gs -> short p -> p <> [] -> d_push_back ok m (block_of hash p) = (c, m') ->
  (c = SUCCESS /\ Q m' (gs ++ [[p]]) /\ exists b, d_list m' = d_list m ++ [b]) \/ (m' = m /\ (c = BUFF_LIMIT \/ c = MALLOC)).
Proof.
  intros H S N E. unfold d_push_back in E. rewrite block_of_frame in E. destruct (number_blocked (d_lim m)); [right; split; [congruence|left; congruence]|].
  destruct (size_blocked (d_lim m) (N.of_nat (length (repeat 0 (N.to_nat uvw) ++ frame p)))) eqn:B; [right; split; [congruence|left; congruence]|].
  unfold d_malloc in E. destruct ok; [|right; split; [congruence|right; congruence]]. apply pair_equal_spec in E. destruct E as [<- <-]. left. split; trivial.
  assert (Lb : N.of_nat (length (repeat 0 (N.to_nat uvw) ++ frame p)) = uvw + blen (frame p)) by (rewrite app_length, repeat_length, Nat2N.inj_add, N2Nat.id; reflexivity).
  pose proof (frame_len p S) as [F1 F2]. unfold short in S.
  split; [|eexists; reflexivity]. destruct H as [F (L1 & L2 & L3)]. split; cbn [d_list d_lim].
  - apply Forall2_app; trivial. constructor; [|constructor]. assert (Fp : frames [p] = frame p) by (unfold frames; cbn [flat_map]; apply app_nil_r).
    split; [congruence|]. split; [trivial|]. split; [reflexivity|]. rewrite Fp. split; [exists (repeat 0 (N.to_nat uvw)); rewrite repeat_length; auto|].
    split; [|constructor; trivial; constructor]. assert (2 ^ 31 + 14 < 2 ^ 32) by reflexivity. lia.
  - split; [|split]; cbn [charge limit_number limit_size cost_size]; trivial. intros M. destruct (L3 M) as [L4 L5].
    unfold size_blocked in B. rewrite L2, (proj2 (N.ltb_lt _ _) M) in B. cbn [andb] in B. apply N.ltb_ge in B.
    assert (Sm : cost_size (d_lim m) + N.of_nat (length (repeat 0 (N.to_nat uvw) ++ frame p)) < two64).
    { rewrite Lb, L4. change two64 with (2 ^ 64). assert (2 ^ 62 + 2 ^ 31 + 300 < 2 ^ 64) by reflexivity. unfold uvw. lia. }
    rewrite (wrap64_small _ Sm) in *. rewrite L4 in *.
    assert (Ta : forall a b, total (a ++ [b]) = total a + d_size b) by (intros a b; induction a as [|x a IH]; cbn [app total fold_right] in *; [lia|unfold total in IH; rewrite IH; lia]).
    rewrite Ta. cbn [d_size]. lia.
Qed.

(** ** The trace invariant *)
Lemma accepted_app a b : accepted (a ++ b) = accepted a ++ accepted b. Proof. apply flat_map_app. Qed.
Lemma reported_app a b : reported (a ++ b) = reported a ++ reported b. Proof. apply flat_map_app. Qed.
Lemma succeeded_app a b : succeeded (a ++ b) = succeeded a ++ succeeded b. Proof. apply flat_map_app. Qed.
Lemma wire_app a b : wire (a ++ b) = wire a ++ wire b. Proof. apply flat_map_app. Qed.
Lemma frames_app a b : frames (a ++ b) = frames a ++ frames b. Proof. apply flat_map_app. Qed.

Definition in_flight (t : list wout) (d : bytes) : Prop := exists t1 t2, t = t1 ++ OWrite d :: t2 /\ reported t2 = [] /\ wire t2 = [].
Lemma in_flight_more t d o : in_flight t d -> reported o = [] -> wire o = [] -> in_flight (t ++ o) d.
Proof.
  intros (t1 & t2 & -> & A & B) C D. exists t1, (t2 ++ o). rewrite <- app_assoc. split; trivial. rewrite reported_app, wire_app, A, B, C, D. auto.
Qed.

(** [ex]: messages queued whose send has not returned yet. *)
Definition Core (s : wx) (t : list wout) (ex : list bytes) : Prop :=
  exists gs fly can, Q (w_q s) gs /\ accepted t ++ ex = reported t ++ concat gs /\ reported t = succeeded t ++ can /\
    wire t = frames (succeeded t ++ fly) /\ Forall short (accepted t ++ ex) /\
    (w_writing s = true -> can = [] /\ (exists gs', gs = fly :: gs') /\ in_flight t (frames fly)) /\
    (w_writing s = false -> fly = []) /\ (can <> [] -> gs = [] /\ w_closing s = true).

Definition same_flags (s s' : wx) : Prop := w_closing s' = w_closing s /\ w_st s' = w_st s.

Lemma Q_nil m gs : Q m gs -> d_list m = [] -> gs = [].
Proof. intros [F _] E. rewrite E in F. inversion F. trivial. Qed.
Lemma Q_cons m gs b r : Q m gs -> d_list m = b :: r -> exists g gs', gs = g :: gs' /\ gb b g.
Proof. intros [F _] E. rewrite E in F. inversion F; subst; eauto. Qed.

Lemma marks_cancel l : accepted (map (fun p => ODone UV_ECANCELED E_CLOSING p) l) = [] /\ reported (map (fun p => ODone UV_ECANCELED E_CLOSING p) l) = l /\
  succeeded (map (fun p => ODone UV_ECANCELED E_CLOSING p) l) = [] /\ wire (map (fun p => ODone UV_ECANCELED E_CLOSING p) l) = [].
Proof.
  induction l as [|p l (A & B & C & D)]; [auto|]. cbn [map].
  change (accepted (ODone UV_ECANCELED E_CLOSING p :: ?x)) with (accepted x). split; [exact A|]. split; [|split; [exact C|exact D]].
  change (reported (ODone UV_ECANCELED E_CLOSING p :: map (fun p => ODone UV_ECANCELED E_CLOSING p) l)) with (p :: reported (map (fun p => ODone UV_ECANCELED E_CLOSING p) l)). now rewrite B.
Qed.

Lemma try_core ok uv s t ex : Core s t ex ->
  match try_write_all ok uv s with
  | Crash => ok = false
  | Ok (s', c, o) => Core s' (t ++ o) ex /\ (c = 0 \/ c = -603)%Z /\ same_flags s s' /\
      (uv = 0%Z -> c = 0%Z /\ (w_writing s' = false -> d_list (w_q s') = [])) /\ (w_closing s = true -> w_writing s' = w_writing s)
  end.
Proof.
  intros (gs & fly & can & H1 & H2 & H3 & H4 & H5 & H6 & H7 & H8). unfold try_write_all.
  destruct (w_writing s) eqn:W.
  { cbn [try_write]. rewrite W. rewrite app_nil_r. split; [exists gs, fly, can; rewrite W; auto 10|]. split; [now left|]. split; [split; trivial|]. split; [|auto].
    intros _. split; trivial. congruence. }
  destruct (w_closing s) eqn:C.
  - destruct (d_list (w_q s)) as [|b r] eqn:E.
    { cbn [try_write]. rewrite W, E. rewrite app_nil_r. split; [exists gs, fly, can; rewrite W, C; auto 10|]. split; [now left|]. split; [split; trivial|]. split; [auto|auto]. }
    cbn [try_write]. rewrite W, E, C. rewrite <- E. destruct (cancel_spec (length (d_list (w_q s))) (w_q s) gs H1 (le_n _)) as (m' & -> & Q').
    destruct (Q_cons _ _ _ _ H1 E) as (g & gs' & -> & _). assert (can = []) as -> by (destruct can; [trivial|destruct H8; [congruence|discriminate]]).
    destruct (marks_cancel (concat (g :: gs'))) as (M1 & M2 & M3 & M4).
    split; [|split; [now left|split; [split; trivial|split; [|auto]]]].
    + exists [], [], (concat (g :: gs')). cbn [w_q set_q w_writing w_closing]. rewrite accepted_app, reported_app, succeeded_app, wire_app, M1, M2, M3, M4. rewrite !app_nil_r in *.
      split; trivial. split; [exact H2|]. split; [congruence|]. rewrite (H7 eq_refl), app_nil_r in H4. split; trivial. split; trivial.
      split; [congruence|]. split; auto.
    + intros _. split; trivial. intros _. cbn [w_q set_q]. destruct Q' as [F _]. inversion F. trivial.
  - assert (F0 : (0 < S (length (d_list (w_q s))))%nat) by lia.
    destruct (try_write_spec _ ok uv s gs H1 W C F0) as [(X & X1 & X2)|[(X1 & X)|(m & g & gs' & X1 & X2 & X3 & X4)]].
    + rewrite X. trivial.
    + rewrite X, app_nil_r. split; [exists gs, fly, can; rewrite W, C; auto 10|]. split; [now left|]. split; [split; trivial|]. split; [|congruence]. intros _. split; trivial. intros _.
      subst gs. destruct H1 as [F _]. inversion F. trivial.
    + assert (can = []) as -> by (destruct can; [trivial|destruct H8; congruence]). specialize (H7 eq_refl). subst fly. rewrite !app_nil_r in *.
      destruct X4 as [[-> ->]|[U ->]].
      * split; [|split; [now left|split; [split; trivial|split; [|congruence]]]].
        -- exists (g :: gs'), g, []. cbn [w_q set_q set_writing w_writing w_closing]. rewrite accepted_app, reported_app, succeeded_app, wire_app.
           cbn [accepted reported succeeded wire flat_map taken app]. rewrite !app_nil_r. rewrite X1. split; trivial. split; trivial. split; trivial.
           split; [now rewrite H4, frames_app|]. split; trivial. split; [|split; congruence]. intros _. split; trivial. split; [eauto|]. exists t, []. auto.
        -- intros _. split; trivial. discriminate.
      * split; [|split; [now right|split; [split; trivial|split; [congruence|congruence]]]].
        exists (g :: gs'), [], []. cbn [w_q set_q w_writing w_closing]. rewrite !app_nil_r, X1. split; trivial. split; trivial. split; trivial. split; trivial. split; trivial.
        rewrite W. split; [congruence|]. split; [trivial|congruence].
Qed.

(** Sends and disconnects made while a write is in progress. *)
Definition later (s s' : wx) : Prop :=
  w_writing s' = w_writing s /\ (w_closing s = true -> w_closing s' = true) /\
  (w_st s' = w_st s \/ w_st s = Connected /\ w_st s' = Disconnecting) /\
  (w_closing s' = true -> w_closing s = true \/ w_st s' <> Connected).
Lemma later_refl s : later s s. Proof. repeat split; auto. Qed.
Lemma later_trans a b c : later a b -> later b c -> later a c.
Proof.
  intros (A1 & A2 & A3 & A4) (B1 & B2 & B3 & B4). split; [congruence|]. split; [auto|]. split.
  - destruct A3 as [A3|[A3 A3']], B3 as [B3|[B3 B3']]; [left; congruence|right; split; congruence|right; split; congruence|congruence].
  - intros C. destruct (B4 C) as [B|B]; [|auto]. destruct (A4 B) as [A|A]; [auto|]. right. destruct B3 as [B3|[_ B3]]; congruence.
Qed.
Lemma send_writing s gs p ok uv ok2 : w_writing s = true -> Q (w_q s) gs -> short p ->
  exists s1 c new, w_send limit hash s p ok ok2 uv = Ok (s1, [OSend p c]) /\ taken (OSend p c) = new /\ Forall short new /\ Q (w_q s1) (gs ++ map (fun m => [m]) new) /\
    later s s1 /\ w_closing s1 = w_closing s /\ w_st s1 = w_st s /\ exists r, d_list (w_q s1) = d_list (w_q s) ++ r.
Proof.
  intros W H S. unfold w_send.
  assert (Same : forall c, taken (OSend p c) = [] -> exists s1 c0 new, Ok (s, [OSend p c]) = Ok (s1, [OSend p c0]) /\ taken (OSend p c0) = new /\ Forall short new /\ Q (w_q s1) (gs ++ map (fun m => [m]) new) /\
    later s s1 /\ w_closing s1 = w_closing s /\ w_st s1 = w_st s /\ exists r, d_list (w_q s1) = d_list (w_q s) ++ r).
  { intros c E. exists s, c, []. split; trivial. split; trivial. split; [constructor|]. cbn [map]. rewrite app_nil_r. split; trivial. split; [apply later_refl|]. split; trivial. split; trivial.
    exists []. now rewrite app_nil_r. }
  destruct ((0 <? limit) && (limit <? blen p)); [apply Same; destruct p; reflexivity|].
  destruct (w_st s) eqn:St; [|apply Same; destruct p; reflexivity..].
  destruct p as [|x p0].
  - unfold try_write_all. cbn [try_write]. rewrite W. cbn [app]. destruct (Same 0%Z eq_refl) as (s1 & c & new & X). exists s1, c, new. exact X.
  - set (p := x :: p0) in *. destruct (d_push_back ok (w_q s) (block_of hash p)) as [c m] eqn:E.
    destruct (push_group _ _ _ _ _ _ H S ltac:(discriminate) E) as [(-> & Qm & b & Eb)|(_ & Ec)].
    + change ((SUCCESS <? 0)%Z) with false. cbn iota. unfold try_write_all. cbn [try_write w_writing set_q]. rewrite W. cbn [app].
      exists (set_q s m), 0%Z, [p]. split; trivial. split; [reflexivity|]. split; [constructor; [trivial|constructor]|]. split; [exact Qm|]. split; [repeat split; auto|]. split; trivial. split; [exact St|eauto].
    + destruct Ec as [-> | ->].
      * change ((BUFF_LIMIT <? 0)%Z) with true. apply Same. reflexivity.
      * change ((MALLOC <? 0)%Z) with true. apply Same. reflexivity.
Qed.
Lemma disc_later s f : let (s1, o) := w_disc s f in
  later s s1 /\ w_q s1 = w_q s /\ accepted o = [] /\ reported o = [] /\ succeeded o = [] /\ wire o = [] /\ (w_writing s = true -> f = false -> w_closing s1 = w_closing s /\ ~ In OClose o) /\
  (w_closing s = false -> (w_closing s1 = true <-> In OClose o)).
Proof.
  unfold w_disc. destruct (w_st s) eqn:St.
  2, 3: split; [apply later_refl|]; split; trivial; split; trivial; split; trivial; split; trivial; split; trivial; split; [auto|]; intros ->; split; [discriminate|contradiction].
  cbn [w_writing set_st]. destruct (negb f && w_writing s) eqn:B.
  - split; [|]. { split; [reflexivity|]. cbn [w_closing set_st w_st]. split; [auto|]. split; [right; auto|auto]. }
    split; trivial. split; trivial. split; trivial. split; trivial. split; trivial. split; [auto|]. cbn [w_closing set_st]. intros ->. split; [discriminate|contradiction].
  - unfold disc_run. cbn [w_closing set_st]. destruct (w_closing s) eqn:C.
    + split; [|]. { split; [reflexivity|]. cbn [w_closing set_st w_st]. split; [auto|]. split; [right; auto|auto]. }
      split; trivial. split; trivial. split; trivial. split; trivial. split; trivial. split; [auto|discriminate].
    + split; [|]. { split; [reflexivity|]. cbn [w_closing set_closing set_st w_st]. split; [auto|]. split; [right; auto|intros _; right; discriminate]. }
      split; trivial. split; trivial. split; trivial. split; trivial. split; trivial.
      split. { intros W ->. rewrite W in B. discriminate. }
      intros _. cbn. tauto.
Qed.

Definition quiet (o : list wout) : Prop := reported o = [] /\ succeeded o = [] /\ wire o = [].
Lemma acts_spec l : forall s gs, w_writing s = true -> Q (w_q s) gs -> Forall short_act l ->
  exists s1 o, do_acts limit hash s l = Ok (s1, o) /\ quiet o /\ Forall short (accepted o) /\ Q (w_q s1) (gs ++ map (fun m => [m]) (accepted o)) /\ later s s1 /\
    (exists r, d_list (w_q s1) = d_list (w_q s) ++ r) /\ (forallb (fun a => negb (forced a)) l = true -> w_closing s1 = w_closing s).
Proof.
  induction l as [|a l IH]; intros s gs W H F.
  - exists s, []. cbn [do_acts]. split; trivial. split; [repeat split|]. split; [constructor|]. cbn [accepted flat_map map]. rewrite app_nil_r. split; trivial. split; [apply later_refl|].
    split; [exists []; now rewrite app_nil_r|auto].
  - inversion F as [|? ? F1 F2]; subst. cbn [do_acts].
    assert (St : exists s1 o1, match a with ASend p ok => w_send limit hash s p ok false 0 | ADisc f => Ok (w_disc s f) end = Ok (s1, o1) /\ quiet o1 /\ Forall short (accepted o1) /\
       Q (w_q s1) (gs ++ map (fun m => [m]) (accepted o1)) /\ later s s1 /\ (exists r, d_list (w_q s1) = d_list (w_q s) ++ r) /\ (negb (forced a) = true -> w_closing s1 = w_closing s)).
    { destruct a as [p ok|f].
      - destruct (send_writing s gs p ok 0%Z false W H F1) as (s1 & c & new & E & T & Sh & Q1 & L1 & C1 & _ & R1). exists s1, [OSend p c].
        assert (A : accepted [OSend p c] = new) by (unfold accepted; cbn [flat_map]; now rewrite app_nil_r). rewrite A. split; trivial. split; [repeat split|]. auto 8.
      - pose proof (disc_later s f) as D. destruct (w_disc s f) as [s1 o1]. destruct D as (D1 & D2 & D3 & D4 & D5 & D6 & D7 & _). exists s1, o1. split; trivial.
        split; [repeat split; trivial|]. rewrite D3, D2. cbn [map]. rewrite app_nil_r. split; [constructor|]. split; trivial. split; trivial. split; [exists []; now rewrite app_nil_r|].
        intros Nf. apply D7; trivial. destruct f; [discriminate|trivial]. }
    destruct St as (s1 & o1 & -> & (K1 & K2 & K3) & S1 & Q1 & L1 & (r1 & R1) & G1).
    destruct (IH s1 _ (eq_trans (proj1 L1) W) Q1 F2) as (s2 & o2 & -> & (J1 & J2 & J3) & S2 & Q2 & L2 & (r2 & R2) & G2).
    exists s2, (o1 ++ o2). split; trivial. split; [unfold quiet; rewrite reported_app, succeeded_app, wire_app, K1, K2, K3; auto|].
    rewrite accepted_app. split; [apply Forall_app; auto|]. rewrite map_app, app_assoc. split; trivial. split; [apply (later_trans _ s1); trivial|].
    split; [exists (r1 ++ r2); rewrite R2, R1; now rewrite app_assoc|]. cbn [forallb]. intros X. apply andb_true_iff in X. destruct X as [X1 X2]. rewrite (G2 X2). auto.
Qed.
Lemma callbacks_spec uv ms : forall acts s gs, w_writing s = true -> Q (w_q s) gs -> Forall (Forall short_act) acts ->
  exists s1 o, callbacks limit hash s uv ms acts = Ok (s1, o) /\ reported o = ms /\ succeeded o = ms /\ wire o = [] /\ Forall short (accepted o) /\
    Q (w_q s1) (gs ++ map (fun m => [m]) (accepted o)) /\ later s s1 /\
    (exists r, d_list (w_q s1) = d_list (w_q s) ++ r) /\ (forallb (forallb (fun a => negb (forced a))) acts = true -> w_closing s1 = w_closing s).
Proof.
  induction ms as [|p ms IH]; intros acts s gs W H F.
  - exists s, []. cbn [callbacks]. split; trivial. split; trivial. split; trivial. split; trivial. split; [constructor|]. cbn [accepted flat_map map]. rewrite app_nil_r. split; trivial. split; [apply later_refl|].
    split; [exists []; now rewrite app_nil_r|auto].
  - cbn [callbacks]. assert (F1 : Forall short_act (hd [] acts)) by (destruct F; [constructor|trivial]). assert (F2 : Forall (Forall short_act) (tl acts)) by (destruct F; [constructor|trivial]).
    destruct (acts_spec _ s gs W H F1) as (s1 & o1 & -> & (K1 & K2 & K3) & S1 & Q1 & L1 & (r1 & R1) & G1).
    destruct (IH _ s1 _ (eq_trans (proj1 L1) W) Q1 F2) as (s2 & o2 & -> & J1 & J2 & J3 & S2 & Q2 & L2 & (r2 & R2) & G2).
    exists s2, (ODone uv SUCCESS p :: o1 ++ o2). split; trivial.
    change (reported (ODone uv SUCCESS p :: o1 ++ o2)) with (p :: reported (o1 ++ o2)). change (succeeded (ODone uv SUCCESS p :: o1 ++ o2)) with (p :: succeeded (o1 ++ o2)).
    change (wire (ODone uv SUCCESS p :: o1 ++ o2)) with (wire (o1 ++ o2)). change (accepted (ODone uv SUCCESS p :: o1 ++ o2)) with (accepted (o1 ++ o2)).
    rewrite reported_app, succeeded_app, wire_app, accepted_app, K1, K2, K3, J1, J2, J3. split; trivial. split; trivial. split; trivial. split; [apply Forall_app; auto|].
    rewrite map_app, app_assoc. split; trivial. split; [apply (later_trans _ s1); trivial|]. split; [exists (r1 ++ r2); rewrite R2, R1; now rewrite app_assoc|].
    destruct acts as [|a acts]; cbn [hd tl forallb] in *; [intros _; rewrite (G2 eq_refl); auto|]. intros X. apply andb_true_iff in X. destruct X as [X1 X2]. rewrite (G2 X2). auto.
Qed.

Definition flags_ok (s : wx) : Prop :=
  (w_closing s = true -> w_st s <> Connected) /\ (w_st s = Disconnected -> w_closing s = true /\ w_writing s = false) /\
  (w_st s = Disconnecting -> w_writing s = false -> w_closing s = true).
(** No synchronous write failure so far: nothing waits unless a write is in progress. *)
Definition flow (s : wx) : Prop := w_writing s = false -> d_list (w_q s) = [].
(** Only gentle disconnects so far: closing starts when nothing is left. *)
Definition gentle_s (s : wx) : Prop := w_closing s = true -> w_writing s = false /\ d_list (w_q s) = [].
Definition Inv (s : wx) (t : list wout) : Prop := Core s t [] /\ flags_ok s /\ (w_closing s = true <-> In OClose t) /\ (w_st s = Disconnected <-> In OClosed t).

Lemma core_push s t m gs p fly can : Q m (gs ++ [[p]]) -> short p -> p <> [] ->
  accepted t ++ [] = reported t ++ concat gs -> reported t = succeeded t ++ can -> wire t = frames (succeeded t ++ fly) -> Forall short (accepted t ++ []) ->
  (w_writing s = true -> can = [] /\ (exists gs', gs = fly :: gs') /\ in_flight t (frames fly)) -> (w_writing s = false -> fly = []) -> can = [] ->
  Core (set_q s m) t [p].
Proof.
  intros H1 H2 H3 H4 H5 H6 H7 H8 H9 H10. exists (gs ++ [[p]]), fly, can. cbn [w_q set_q w_writing w_closing]. rewrite app_nil_r in *. split; trivial. split; [rewrite concat_app, H4; cbn [concat]; now rewrite app_nil_r, <- app_assoc|].
  split; trivial. split; trivial. split; [apply Forall_app; split; [trivial|constructor; [trivial|constructor]]|]. split; [|split; [trivial|congruence]].
  intros W. destruct (H8 W) as (A & (gs' & ->) & B). split; trivial. split; [|trivial]. cbn [app]. eauto.
Qed.

Lemma core_log s t p c : Core s t (taken (OSend p c)) -> Core s (t ++ [OSend p c]) [].
Proof.
  intros (gs & fly & can & H1 & H2 & H3 & H4 & H5 & H6 & H7 & H8). exists gs, fly, can. rewrite accepted_app, reported_app, succeeded_app, wire_app.
  assert (A : accepted [OSend p c] = taken (OSend p c)) by (unfold accepted; cbn [flat_map]; apply app_nil_r). rewrite A.
  cbn [reported succeeded wire flat_map]. rewrite !app_nil_r. split; trivial. split; trivial. split; trivial. split; trivial. split; trivial.
  split; [|split; trivial]. intros W. destruct (H6 W) as (X & Y & Z). split; trivial. split; trivial. apply in_flight_more; trivial.
Qed.
Lemma core_quiet s s' t o : Core s t [] -> accepted o = [] -> quiet o -> w_q s' = w_q s -> w_writing s' = w_writing s -> (w_closing s = true -> w_closing s' = true) -> Core s' (t ++ o) [].
Proof.
  intros (gs & fly & can & H1 & H2 & H3 & H4 & H5 & H6 & H7 & H8) A (R & S & W) E1 E2 E3. exists gs, fly, can. rewrite accepted_app, reported_app, succeeded_app, wire_app, A, R, S, W, E1, E2, !app_nil_r in *.
  split; trivial. split; trivial. split; trivial. split; trivial. split; trivial. split; [|split; [trivial|]].
  - intros X. destruct (H6 X) as (Y & Z & T). split; trivial. split; trivial. apply in_flight_more; trivial.
  - intros X. destruct (H8 X). auto.
Qed.

Lemma try_outs ok uv s s' c o : try_write_all ok uv s = Ok (s', c, o) -> ~ In OClose o /\ ~ In OClosed o.
Proof.
  unfold try_write_all. generalize (S (length (d_list (w_q s)))). intros n. revert s s' c o.
  assert (Cn : forall f m m' o, cancel f m = Ok (m', o) -> ~ In OClose o /\ ~ In OClosed o).
  { induction f as [|f IH]; intros m m' o E; cbn [cancel] in E; destruct (d_list m) as [|b r]; try discriminate.
    - assert (o = []) by congruence. subst. auto.
    - assert (o = []) by congruence. subst. auto.
    - destruct (d_size b <? uvw); [discriminate|]. destruct (block_msgs (length (body b)) (body b)) as [ms|]; [|discriminate].
      destruct (cancel f (snd (d_pop_front m (d_size b) true))) as [[m1 o1]|] eqn:E1; [|discriminate]. assert (o = map (fun p => ODone UV_ECANCELED E_CLOSING p) ms ++ o1) by congruence. subst o.
      destruct (IH _ _ _ E1) as [I1 I2]. split; intros X; apply in_app_or in X; destruct X as [X|X]; try contradiction; apply in_map_iff in X; destruct X as (y & Y & _); discriminate. }
  induction n as [|n IH]; intros s s' c o E; cbn [try_write] in E; (destruct (w_writing s); [assert (o = []) by congruence; subst; auto|]);
    (destruct (d_list (w_q s)) as [|b r]; [assert (o = []) by congruence; subst; auto|]);
    (destruct (w_closing s); [destruct (cancel (length (b :: r)) (w_q s)) as [[m1 o1]|] eqn:E1; [|discriminate]; assert (o = o1) by congruence; subst; eauto|]);
    (destruct (merge ok (w_q s)) as [m|]; [|discriminate]); destruct (d_list m) as [|b1 r1]; try discriminate.
  destruct (d_size b1 <=? uvw); [eauto|]. destruct (uv =? 0)%Z.
  - assert (o = [OWrite (handed ((d_size b1 - uvw) mod 2 ^ 32) (body b1))]) by congruence. subst o. split; intros [X|[]]; discriminate.
  - assert (o = []) by congruence. subst; auto.
Qed.

Lemma try_silent ok uv s s' c o : try_write_all ok uv s = Ok (s', c, o) -> w_closing s = false -> reported o = succeeded o.
Proof.
  unfold try_write_all. generalize (S (length (d_list (w_q s)))). intros n. revert s s' c o.
  induction n as [|n IH]; intros s s' c o E C; cbn [try_write] in E; (destruct (w_writing s); [assert (o = []) by congruence; subst; auto|]);
    (destruct (d_list (w_q s)) as [|b r]; [assert (o = []) by congruence; subst; auto|]); rewrite C in E;
    (destruct (merge ok (w_q s)) as [m|]; [|discriminate]); destruct (d_list m) as [|b1 r1]; try discriminate.
  destruct (d_size b1 <=? uvw); [eauto|]. destruct (uv =? 0)%Z.
  - assert (o = [OWrite (handed ((d_size b1 - uvw) mod 2 ^ 32) (body b1))]) by congruence. subst o. reflexivity.
  - assert (o = []) by congruence. subst; auto.
Qed.

Lemma send_inv s t p ok1 ok2 uv : Inv s t -> short p ->
  match w_send limit hash s p ok1 ok2 uv with
  | Crash => ok2 = false
  | Ok (s', o) => Inv s' (t ++ o) /\ (uv = 0%Z -> flow s -> flow s') /\ (gentle_s s -> gentle_s s')
  end.
Proof.
  intros (Co & Fl & Cl & Cd) S. unfold w_send.
  assert (Same : forall c, taken (OSend p c) = [] -> Inv s (t ++ [OSend p c]) /\ (uv = 0%Z -> flow s -> flow s) /\ (gentle_s s -> gentle_s s)).
  { intros c E. split; [|auto]. split; [apply core_log; now rewrite E|]. split; trivial. split; (etransitivity; [eassumption|]); split; intros X; try (apply in_or_app; now left);
      apply in_app_or in X; destruct X as [X|[X|[]]]; trivial; discriminate. }
  destruct ((0 <? limit) && (limit <? blen p)); [apply Same; destruct p; reflexivity|].
  destruct (w_st s) eqn:St; [|apply Same; destruct p; reflexivity..].
  assert (NC : w_closing s = false) by (destruct (w_closing s) eqn:X; trivial; destruct Fl as [Fl _]; elim (Fl X); trivial).
  assert (Go : forall s0 ex, Core s0 t ex -> ex = (match p with [] => [] | _ => [p] end) -> same_flags s s0 -> w_writing s0 = w_writing s ->
    match match try_write_all ok2 uv s0 with Crash => Crash | Ok (s', c, o) => Ok (s', o ++ [OSend p c]) end with
    | Crash => ok2 = false
    | Ok (s', o) => Inv s' (t ++ o) /\ (uv = 0%Z -> flow s -> flow s') /\ (gentle_s s -> gentle_s s')
    end).
  { intros s0 ex C0 Ee [E1 E2] E3. pose proof (try_core ok2 uv s0 t ex C0) as T. destruct (try_write_all ok2 uv s0) as [[[s' c] o]|] eqn:Et; trivial.
    destruct T as (T1 & T2 & [T3 T3'] & T4 & T5). destruct (try_outs _ _ _ _ _ _ Et) as [O1 O2]. rewrite app_assoc.
    assert (Et2 : ex = taken (OSend p c)) by (rewrite Ee; destruct p; [reflexivity|]; unfold taken; destruct T2 as [-> | ->]; reflexivity).
    split; [|split].
    - split; [apply core_log; rewrite <- Et2; exact T1|]. split; [|split].
      + split; [rewrite T3, E1, NC; discriminate|]. rewrite T3', E2, St. split; discriminate.
      + rewrite T3, E1. rewrite Cl, !in_app_iff. cbn [In]. split; [tauto|]. intros [[X|X]|[X|[]]]; trivial; [contradiction|discriminate].
      + rewrite T3', E2, St, Cd, !in_app_iff. cbn [In]. split; [tauto|]. intros [[X|X]|[X|[]]]; trivial; [contradiction|discriminate].
    - intros U _. exact (proj2 (T4 U)).
    - intros _ X. rewrite T3, E1, NC in X. discriminate. }
  destruct p as [|x p0]; [apply (Go s []); trivial; split; trivial|]. set (p := x :: p0) in *.
  destruct (d_push_back ok1 (w_q s) (block_of hash p)) as [c m] eqn:E. pose proof Co as Co0. destruct Co as (gs & fly & can & H1 & H2 & H3 & H4 & H5 & H6 & H7 & H8).
  destruct (push_group _ _ _ _ _ _ H1 S ltac:(discriminate) E) as [(-> & Qm & b & Eb)|(_ & Ec)].
  - change ((SUCCESS <? 0)%Z) with false. cbn iota. apply (Go (set_q s m) [p]); [|reflexivity|split; trivial|trivial].
    apply (core_push s t m gs p fly can); trivial; [discriminate|]. destruct can; trivial. destruct H8; congruence.
  - destruct Ec as [-> | ->].
    + change ((BUFF_LIMIT <? 0)%Z) with true. apply Same. reflexivity.
    + change ((MALLOC <? 0)%Z) with true. apply Same. reflexivity.
Qed.

Lemma acts_outs l : forall s s1 o, w_writing s = true -> (exists gs, Q (w_q s) gs) -> Forall short_act l -> do_acts limit hash s l = Ok (s1, o) ->
  ~ In OClosed o /\ (w_closing s1 = true <-> w_closing s = true \/ In OClose o).
Proof.
  induction l as [|a l IH]; intros s s1 o W [gs H] F E; cbn [do_acts] in E.
  - assert (s1 = s /\ o = []) as [-> ->] by (split; congruence). split; [auto|]. cbn [In]. tauto.
  - inversion F as [|? ? F1 F2]; subst.
    assert (St : forall s2 o2, match a with ASend p ok => w_send limit hash s p ok false 0 | ADisc f => Ok (w_disc s f) end = Ok (s2, o2) ->
      ~ In OClosed o2 /\ (w_closing s2 = true <-> w_closing s = true \/ In OClose o2) /\ w_writing s2 = true /\ exists gs2, Q (w_q s2) gs2).
    { intros s2 o2 E2. destruct a as [p ok|f].
      - destruct (send_writing s gs p ok 0%Z false W H F1) as (s3 & c & new & E3 & _ & _ & Q3 & L3 & C3 & _). rewrite E3 in E2. assert (s2 = s3 /\ o2 = [OSend p c]) as [-> ->] by (split; congruence).
        split; [intros [X|[]]; discriminate|]. rewrite C3. split; [split; [auto|intros [X|[X|[]]]; [trivial|discriminate]]|]. split; [rewrite (proj1 L3); trivial|eauto].
      - assert (w_disc s f = (s2, o2)) by congruence. pose proof (disc_later s f) as D. rewrite H0 in D. destruct D as (D1 & D2 & _ & _ & _ & _ & _ & D8).
        split. { unfold w_disc, disc_run in H0. destruct (w_st s); [|assert (o2 = []) by congruence; subst; auto..]. destruct (negb f && w_writing (set_st s Disconnecting)); [assert (o2 = []) by congruence; subst; auto|].
          destruct (w_closing (set_st s Disconnecting)); [assert (o2 = []) by congruence; subst; auto|]. assert (o2 = [OClose]) by congruence. subst. intros [X|[]]; discriminate. }
        split. { destruct (w_closing s) eqn:C; [|rewrite D8 by trivial; split; [auto|intros [X|X]; [discriminate|trivial]]]. split; [auto|]. intros _. apply D1. trivial. }
        split; [rewrite (proj1 D1); trivial|rewrite D2; eauto]. }
    destruct (match a with ASend p ok => w_send limit hash s p ok false 0 | ADisc f => Ok (w_disc s f) end) as [[s2 o2]|]; [|discriminate].
    destruct (St _ _ eq_refl) as (A1 & A2 & A3 & A4). destruct (do_acts limit hash s2 l) as [[s3 o3]|] eqn:E3; [|discriminate].
    assert (s1 = s3 /\ o = o2 ++ o3) as [-> ->] by (split; congruence). destruct (IH _ _ _ A3 A4 F2 E3) as [B1 B2]. rewrite !in_app_iff. split; [tauto|]. rewrite B2, A2. tauto.
Qed.
Lemma callbacks_outs uv ms : forall acts s s1 o, w_writing s = true -> (exists gs, Q (w_q s) gs) -> Forall (Forall short_act) acts -> callbacks limit hash s uv ms acts = Ok (s1, o) ->
  ~ In OClosed o /\ (w_closing s1 = true <-> w_closing s = true \/ In OClose o).
Proof.
  induction ms as [|p ms IH]; intros acts s s1 o W [gs H] F E; cbn [callbacks] in E.
  - assert (s1 = s /\ o = []) as [-> ->] by (split; congruence). split; [auto|]. cbn [In]. tauto.
  - assert (F1 : Forall short_act (hd [] acts)) by (destruct F; [constructor|trivial]). assert (F2 : Forall (Forall short_act) (tl acts)) by (destruct F; [constructor|trivial]).
    destruct (acts_spec _ s gs W H F1) as (s2 & o2 & E2 & _ & _ & Q2 & L2 & _). rewrite E2 in E. destruct (acts_outs _ _ _ _ W (ex_intro _ gs H) F1 E2) as [A1 A2].
    destruct (callbacks limit hash s2 uv ms (tl acts)) as [[s3 o3]|] eqn:E3; [|discriminate].
    assert (s1 = s3 /\ o = ODone uv SUCCESS p :: o2 ++ o3) as [-> ->] by (split; congruence).
    destruct (IH _ _ _ _ (eq_trans (proj1 L2) W) (ex_intro _ _ Q2) F2 E3) as [B1 B2]. cbn [In]. rewrite !in_app_iff. split; [intros [X|X]; [discriminate|tauto]|].
    rewrite B2, A2. split; [tauto|]. intros [X|[X|[X|X]]]; auto. discriminate.
Qed.

Lemma done_inv s t uv acts ok uv' : Inv s t -> w_writing s = true -> Forall (Forall short_act) acts ->
  match w_done limit hash s uv acts ok uv' with
  | Crash => ok = false
  | Ok (s', o) => Inv s' (t ++ o) /\ (uv' = 0%Z -> flow s') /\ (uv' = 0%Z -> forallb (forallb (fun a => negb (forced a))) acts = true -> gentle_s s -> gentle_s s')
  end.
Proof.
  intros (Co & Fl & Cl & Cd) W F. destruct Co as (gs & fly & can & H1 & H2 & H3 & H4 & H5 & H6 & H7 & H8). destruct (H6 W) as (-> & (gs' & ->) & If).
  assert (ND : w_st s <> Disconnected) by (intros X; destruct Fl as (_ & Fl & _); destruct (Fl X); congruence).
  unfold w_done. destruct (d_list (w_q s)) as [|b r] eqn:E; [apply Q_nil in H1; trivial; discriminate|].
  assert (G : gb b fly) by (destruct (Q_cons _ _ _ _ H1 E) as (g & x & X & G); congruence). destruct (gb_body _ _ G) as (B1 & B2 & B3 & B4 & B5).
  rewrite B5, (proj2 (N.eqb_neq _ _)), (proj2 (N.ltb_ge _ _)) by (unfold uvw in *; lia).
  rewrite B1. replace (N.to_nat (d_size b - uvw)) with (length (frames fly)) by (rewrite B2; unfold blen; lia). rewrite firstn_all, block_msgs_frames by (trivial; apply G).
  destruct (callbacks_spec uv fly acts s _ W H1 F) as (s1 & o & E1 & R1 & R2 & R3 & Sh & Q1 & L1 & (r1 & D1) & G1). rewrite E1.
  destruct (callbacks_outs _ _ _ _ _ _ W (ex_intro _ _ H1) F E1) as [N1 N2].
  rewrite E in D1. cbn [app] in D1, Q1. destruct (pop_group _ _ _ _ _ (d_size b) D1 Q1 eq_refl) as (m & P1 & P2 & P3). rewrite P1. cbn [snd].
  rewrite app_nil_r in H3.
  assert (C1 : Core (set_writing (set_q s1 m) false) (t ++ o) []).
  { exists (gs' ++ map (fun m => [m]) (accepted o)), [], []. cbn [w_q set_q set_writing w_writing w_closing]. rewrite accepted_app, reported_app, succeeded_app, wire_app, R1, R2, R3, !app_nil_r in *.
    split; trivial. split. { rewrite concat_app, H2. cbn [concat]. replace (concat (map (fun m0 => [m0]) (accepted o))) with (accepted o); [now rewrite <- !app_assoc|].
      generalize (accepted o). induction l as [|x l IH]; cbn [map concat app]; congruence. }
    split; [congruence|]. split; trivial. split; [apply Forall_app; auto|]. split; [discriminate|]. split; [auto|congruence]. }
  pose proof (try_core ok uv' _ _ [] C1) as T. destruct (try_write_all ok uv' (set_writing (set_q s1 m) false)) as [[[s2 c] o2]|] eqn:Et; trivial.
  destruct T as (T1 & T2 & [T3 T3'] & T4 & T5). destruct (try_outs _ _ _ _ _ _ Et) as [O1 O2]. cbn [w_closing w_st set_writing set_q w_writing] in T3, T3', T5.
  destruct L1 as (L1 & L2 & L3 & L4). destruct Fl as (Fa & Fb & Fc).
  assert (C2 : w_closing s2 = true -> w_st s2 <> Connected).
  { rewrite T3, T3'. intros X. destruct (L4 X) as [Y|Y]; trivial. specialize (Fa Y). destruct L3 as [L3|[_ L3]]; congruence. }
  assert (ND2 : w_st s2 <> Disconnected) by (rewrite T3'; destruct L3 as [L3|[_ L3]]; congruence).
  assert (Cl2 : w_closing s2 = true <-> In OClose (t ++ o ++ o2)) by (rewrite T3, N2, Cl, !in_app_iff; clear - O1; tauto).
  assert (Cd2 : ~ In OClosed (t ++ o ++ o2)) by (rewrite !in_app_iff; tauto).
  rewrite !app_assoc in *. assert (Fw : uv' = 0%Z -> flow s2) by (intros U; exact (proj2 (T4 U))).
  destruct (w_st s2) eqn:St2; [| |congruence].
  - rewrite !app_nil_r, ?app_assoc. split; [|split].
    + split; trivial. split; [split; [rewrite St2; trivial|rewrite St2; split; discriminate]|]. split; trivial. rewrite St2. split; [discriminate|contradiction].
    + exact Fw.
    + intros U Gt Gs X. exfalso. apply (C2 X). reflexivity.
  - destruct (w_writing s2) eqn:W2.
    + rewrite !app_nil_r, ?app_assoc. split; [|split].
      * split; trivial. split; [split; [rewrite St2; trivial|rewrite St2; split; [discriminate|congruence]]|]. split; trivial. rewrite St2. split; [discriminate|contradiction].
      * exact Fw.
      * intros U Gt Gs X. rewrite T3, (G1 Gt) in X. destruct (Gs X) as [Y _]. congruence.
    + unfold disc_run. destruct (w_closing s2) eqn:Cs2.
      * rewrite !app_nil_r, ?app_assoc. split; [|split].
        -- split; trivial. split; [split; [rewrite St2; discriminate|rewrite St2; split; [discriminate|trivial]]|]. rewrite Cs2. split; trivial. rewrite St2. split; [discriminate|contradiction].
        -- exact Fw.
        -- intros U Gt Gs X. split; [trivial|exact (Fw U W2)].
      * rewrite ?app_assoc. split; [|split].
        -- split; [apply (core_quiet s2); trivial; repeat split|]. split; [split; [cbn [w_st set_closing w_closing]; rewrite St2; discriminate|cbn [w_st set_closing w_closing]; split; [rewrite St2; discriminate|trivial]]|].
           cbn [w_st set_closing w_closing]. rewrite !in_app_iff. cbn [In]. split; [clear; split; auto|]. rewrite St2. split; [discriminate|]. rewrite !in_app_iff in Cd2. intros [X|[X|[]]]; [tauto|discriminate].
        -- exact Fw.
        -- intros U Gt Gs X. cbn [w_q set_closing w_writing]. split; [trivial|exact (Fw U W2)].
Qed.

Lemma step_inv s t e : Inv s t -> allowed s e ->
  match w_step limit hash s e with
  | Crash => ~ merge_memory e
  | Ok (s', o) => Inv s' (t ++ o) /\ (writes_start e -> flow s -> flow s') /\ (writes_start e -> gentle e -> flow s -> gentle_s s -> gentle_s s')
  end.
Proof.
  intros I A. destruct e as [p ok1 ok2 uv|uv acts ok uv'|f|]; cbn [w_step allowed merge_memory writes_start gentle] in *.
  - pose proof (send_inv s t p ok1 ok2 uv I A) as X. destruct (w_send limit hash s p ok1 ok2 uv) as [[s' o]|]; [|congruence]. destruct X as (X1 & X2 & X3). split; [trivial|]. split; [trivial|]. auto.
  - destruct A as [A1 A2]. pose proof (done_inv s t uv acts ok uv' I A1 A2) as X. destruct (w_done limit hash s uv acts ok uv') as [[s' o]|]; [|congruence]. destruct X as (X1 & X2 & X3). split; [trivial|]. split; auto.
  - pose proof (disc_later s f) as D. unfold w_disc, disc_run in *. destruct I as (Co & (Fa & Fb & Fc) & Cl & Cd).
    destruct (w_st s) eqn:St.
    2, 3: rewrite app_nil_r; split; [split; trivial; split; [split; [rewrite St; trivial|split; rewrite St; trivial]|rewrite St; auto]|]; split; auto.
    assert (NC : w_closing s = false) by (destruct (w_closing s) eqn:X; trivial; elim (Fa eq_refl); trivial).
    cbn [w_writing set_st w_closing] in *. rewrite NC in *. destruct (negb f && w_writing s) eqn:B.
    + rewrite app_nil_r. apply andb_true_iff in B. destruct B as [Bf Bw]. split; [|split].
      * split; [destruct Co as (gs & fly & can & X); exists gs, fly, can; exact X|]. split; [split; [cbn; discriminate|split; cbn; [discriminate|congruence]]|]. cbn [w_closing set_st w_st]. rewrite NC.
        split; trivial. rewrite <- Cd. split; discriminate.
      * auto.
      * intros _ _ _ Gs. unfold gentle_s. cbn [w_closing set_st]. rewrite NC. discriminate.
    + split; [|split].
      * split; [apply (core_quiet s); trivial; repeat split|]. split; [split; [cbn; discriminate|split; cbn; [discriminate|trivial]]|]. cbn [w_closing set_closing set_st w_st].
        rewrite !in_app_iff. cbn [In]. split; [tauto|]. split; [discriminate|]. intros [X|[X|[]]]; [apply Cd in X; discriminate|discriminate].
      * auto.
      * intros _ Ef Fw Gs _. subst f. cbn [negb andb] in B. cbn [w_q w_writing set_closing set_st]. auto.
  - destruct A as (A1 & A2 & A3). destruct I as (Co & (Fa & Fb & Fc) & Cl & Cd). split; [|split].
    + split; [apply (core_quiet s); trivial; repeat split|]. split; [split; [cbn; discriminate|split; cbn; [auto|discriminate]]|]. cbn [w_closing set_st w_st]. rewrite !in_app_iff. cbn [In].
      split; [rewrite Cl; split; [tauto|intros [X|[X|[]]]; [trivial|discriminate]]|tauto].
    + auto.
    + auto.
Qed.

Lemma run_inv es : forall s t, Inv s t -> wlegal limit hash s es ->
  match w_run limit hash s es with
  | Crash => ~ Forall merge_memory es
  | Ok (s', o) => Inv s' (t ++ o) /\ (Forall writes_start es -> flow s -> flow s') /\ (Forall writes_start es -> Forall gentle es -> flow s -> gentle_s s -> gentle_s s')
  end.
Proof.
  induction es as [|e es IH]; intros s t I L; cbn [w_run].
  - rewrite app_nil_r. auto.
  - cbn [wlegal] in L. destruct L as [L1 L2]. pose proof (step_inv s t e I L1) as S. destruct (w_step limit hash s e) as [[s1 o1]|]; [|intros X; inversion X; contradiction].
    destruct S as (S1 & S2 & S3). specialize (IH s1 (t ++ o1) S1 L2). destruct (w_run limit hash s1 es) as [[s2 o2]|]; [|intros X; inversion X; contradiction].
    destruct IH as (J1 & J2 & J3). rewrite app_assoc. split; trivial. split.
    + intros X Fs. inversion X; subst. auto.
    + intros X Y Fs Gs. inversion X; inversion Y; subst. apply J3; auto.
Qed.

Lemma init_inv : Inv (w_init max) [].
Proof.
  split; [|split; [|split]].
  - exists [], [], []. split; [split; [cbn [d_list d_init w_q w_init]; constructor|split; [reflexivity|split; [reflexivity|cbn; lia]]]|]. split; trivial. split; trivial. split; trivial. split; [constructor|]. split; [discriminate|]. split; [trivial|congruence].
  - split; [discriminate|]. split; discriminate.
  - cbn. split; [discriminate|contradiction].
  - cbn. split; [discriminate|contradiction].
Qed.
End W.
