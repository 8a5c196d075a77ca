(** Proofs about the sender with a fixed area: the ring holds groups of whole frames and the
    merged block always finds room.  Structure of IoWriteProof.v. *)
From Verif Require Import Base Vint VintSpec VintProof Mem MemSpec MemProof IoSpec IoRecvProof IoWrite IoWriteSpec IoWriteProof IoWriteS IoWriteSSpec
  BufferSpec Buffer BufDynProof BufStaticProof BufStaticProof2 BufStaticProof3 BufStaticProof4 IoRing.
Local Open Scope N_scope.
Ltac Zify.zify_post_hook ::= idtac.

Section V.
Variables (limit mx : N) (mn : nat) (hash : bytes -> N).
Hypothesis Hh : forall p, hash p < 2 ^ 32.
Hypothesis Hmx0 : 0 < mx.
Hypothesis Hmx : mx < 2 ^ 60.
Hypothesis Hmn : (1 <= mn)%nat.

Let Hmx' : mx <= 2 ^ 62. Proof. lia. Qed.
Notation frames := (IoWriteProof.frames hash).
Notation frame := (IoWriteProof.frame hash).

(** ** Groups *)
Definition gk (x : blk) (g : list bytes) : Prop :=
  g <> [] /\ used x = 0%nat /\ (exists j, length j = N.to_nat uvw /\ raw x = j ++ frames g) /\ blen (frames g) < 2 ^ 32 /\ Forall short g.
Definition VQ (m : smgr) (gs : list (list bytes)) : Prop := exists l, inv_s mx mn m l /\ Forall2 gk (map snd l) gs.

Lemma gk_facts x g : gk x g -> blen (raw x) = uvw + blen (frames g) /\ skipn (N.to_nat uvw) (raw x) = frames g /\ 5 <= blen (frames g) /\ unread x = uvw + blen (frames g) /\ bsize x = uvw + blen (frames g).
Proof.
  intros (N & U & (j & Lj & E) & B & F). assert (Bj : blen j = uvw) by (unfold blen; rewrite Lj; reflexivity).
  assert (L : blen (raw x) = uvw + blen (frames g)) by (rewrite E, blen_app, Bj; reflexivity).
  split; trivial. split; [rewrite E, skipn_app, <- Lj, skipn_all, Nat.sub_diag, skipn_O; reflexivity|]. split.
  - destruct g as [|p g]; [congruence|]. inversion F; subst. change (frames (p :: g)) with (frame p ++ frames g). rewrite blen_app. pose proof (frame_len mx hash Hh Hmx' p H1). lia.
  - split; [rewrite <- L; unfold unread, blen; rewrite U; apply N.sub_0_r|exact L].
Qed.

Lemma VQ_nil m : VQ m [] -> static_empty (s_buf m) = true /\ s_front m = Some None.
Proof. intros (l & I & F). destruct l; [|cbn [map] in F; inversion F]. exact (front_nil mx mn m I). Qed.
Lemma VQ_ring m a x r : inv_s mx mn m ((a, x) :: r) -> exists t, ring (s_buf m) ((a, x) :: r) t.
Proof. intros I. exact (ring0_nonempty _ _ (i_ring _ _ _ _ I) ltac:(discriminate)). Qed.
Lemma VQ_room m l : inv_s mx mn m l -> (length l < room m)%nat.
Proof. intros I. unfold room. rewrite (i_csz _ _ _ _ I). pose proof (i_len _ _ _ _ I). lia. Qed.

Lemma VQ_cons m g gs : VQ m (g :: gs) -> static_empty (s_buf m) = false /\
  exists k, s_front m = Some (Some k) /\ k_used k = 0 /\ k_body k = frames g /\ k_size k = uvw + blen (frames g) /\
    5 <= blen (frames g) /\ blen (frames g) < 2 ^ 32 /\ Forall short g /\ g <> [] /\ exists m', v_pop m (k_size k) = Ok m' /\ VQ m' gs.
Proof.
  intros (l & I & F). destruct l as [|[a x] r]; [cbn [map] in F; inversion F|]. cbn [map snd] in F. inversion F as [|? ? ? ? G F']; subst.
  destruct (front_cons mx mn m a x r I) as [E1 E2]. split; trivial. destruct (gk_facts x g G) as (L & Sk & B & _). destruct (VQ_ring _ _ _ _ I) as [t R].
  destruct (pop_whole mx mn Hmx0 Hmx Hmn m a x r t I R (proj1 (proj2 G))) as (m' & t' & P & I' & _).
  eexists. split; [exact E2|]. cbn [k_used k_body k_size k_raw]. unfold k_body, k_size. cbn [k_raw]. rewrite (proj1 (proj2 G)).
  split; trivial. split; trivial. split; trivial. split; trivial. split; [apply G|]. split; [apply G|]. split; [apply G|]. exists m'. split; trivial. exists r. auto.
Qed.

Lemma v_cancel_spec fuel : forall m gs, VQ m gs -> (length gs <= fuel)%nat ->
  exists m', v_cancel fuel m = Ok (m', map (fun p => ODone UV_ECANCELED E_CLOSING p) (concat gs)) /\ VQ m' [].
Proof.
  induction fuel as [|f IH]; intros m gs H L.
  - destruct gs as [|g gs]; [|cbn in L; lia]. exists m. destruct (VQ_nil m H) as [_ E]. split; trivial. cbn [v_cancel]. rewrite E. reflexivity.
  - destruct gs as [|g gs].
    + exists m. destruct (VQ_nil m H) as [_ E]. split; trivial. cbn [v_cancel]. rewrite E. reflexivity.
    + destruct (VQ_cons m g gs H) as (_ & k & E & Uz & Bo & Sz & B1 & B2 & Sh & Ne & m1 & P & H1).
      destruct (IH m1 gs H1) as (m' & C & C'); [cbn in L; lia|]. exists m'. split; trivial. cbn [v_cancel]. rewrite E, (proj2 (N.ltb_ge _ _)) by lia.
      rewrite Bo, (block_msgs_frames mx hash Hh Hmx') by trivial. rewrite P, C. cbn [concat]. now rewrite map_app.
Qed.

(** ** Merging *)
Lemma pad_uvw b : fl (uvw + b) = 224 + pad b.
Proof.
  unfold fl, pad, uvw. replace (192 + b + 15) with (b + 15 + 12 * 16) by lia. rewrite N.div_add by lia. lia.
Qed.
Lemma groups_area l : forall gs, Forall2 gk (map snd l) gs ->
  224 * N.of_nat (length l) + pad (blen (frames (concat gs))) <= area l /\ total_unread (map snd l) = 192 * N.of_nat (length l) + blen (frames (concat gs)).
Proof.
  induction l as [|[a x] l IH]; intros gs F; cbn [map snd] in F; inversion F as [|? g ? gs' G F']; subst.
  - cbn. split; [lia|reflexivity].
  - destruct (IH gs' F') as [I1 I2]. destruct (gk_facts x g G) as (_ & _ & _ & U & B). cbn [concat length area fold_right snd]. fold (area l).
    unfold IoWriteProof.frames in *. rewrite flat_map_app, blen_app, B, pad_uvw.
    pose proof (pad_add (blen (flat_map frame g)) (blen (flat_map frame (concat gs')))). cbn [map snd]. rewrite total_cons, I2, U. unfold uvw. split; lia.
Qed.

Lemma v_merge_loop_spec fuel : forall m l gs avail acc prev t, inv_s mx mn m l -> Forall2 gk (map snd l) gs -> ring (s_buf m) l t -> (length l <= fuel)%nat -> avail + blen acc = merge_len ->
  exists m' l1 l2 gs1 gs2 t', v_merge_loop fuel m prev avail acc = Ok (m', acc ++ frames (concat gs1)) /\ l = l1 ++ l2 /\ gs = gs1 ++ gs2 /\
    Forall2 gk (map snd l1) gs1 /\ Forall2 gk (map snd l2) gs2 /\ inv_s mx mn m' l2 /\ ring (s_buf m') l2 t' /\ (l2 <> [] -> t' = t) /\ (l2 = [] -> t' = 0) /\
    rising prev l1 /\ blen (acc ++ frames (concat gs1)) <= merge_len /\ (forall a x r, l = (a, x) :: r -> prev = None -> blen (raw x) <= avail -> l1 <> []).
Proof.
  assert (Stop : forall fuel m l gs avail acc prev t, inv_s mx mn m l -> Forall2 gk (map snd l) gs -> ring (s_buf m) l t -> avail + blen acc = merge_len ->
    v_merge_loop fuel m prev avail acc = Ok (m, acc) -> (forall a x r, l = (a, x) :: r -> prev = None -> blen (raw x) <= avail -> False) ->
    exists m' l1 l2 gs1 gs2 t', v_merge_loop fuel m prev avail acc = Ok (m', acc ++ frames (concat gs1)) /\ l = l1 ++ l2 /\ gs = gs1 ++ gs2 /\
    Forall2 gk (map snd l1) gs1 /\ Forall2 gk (map snd l2) gs2 /\ inv_s mx mn m' l2 /\ ring (s_buf m') l2 t' /\ (l2 <> [] -> t' = t) /\ (l2 = [] -> t' = 0) /\
    rising prev l1 /\ blen (acc ++ frames (concat gs1)) <= merge_len /\ (forall a x r, l = (a, x) :: r -> prev = None -> blen (raw x) <= avail -> l1 <> [])).
  { intros fuel0 m l gs avail acc prev t I F R A E X. exists m, [], l, [], gs, t. cbn [concat map]. rewrite app_nil_r. split; trivial. split; trivial. split; trivial. split; [constructor|]. split; trivial.
    split; trivial. split; trivial. split; trivial. split; [|split; [exact Logic.I|split; [lia|]]].
    - intros ->. pose proof (r_lay _ _ _ R) as X0. inversion X0; auto.
    - intros a x r E1 E2 E3. exfalso. eauto. }
  induction fuel as [|f IH]; intros m l gs avail acc prev t I F R L A.
  - destruct l as [|[a x] l]; [|cbn in L; lia]. apply Stop; trivial; [|discriminate]. cbn [v_merge_loop]. rewrite (proj2 (front_nil mx mn m I)). reflexivity.
  - destruct l as [|[a x] r].
    { apply Stop; trivial; [|discriminate]. cbn [v_merge_loop]. rewrite (proj2 (front_nil mx mn m I)). reflexivity. }
    cbn [map snd] in F. inversion F as [|? g ? gs' G F']; subst. destruct (gk_facts x g G) as (Lx & Sk & B & _).
    destruct (front_cons mx mn m a x r I) as [_ E2].
    destruct ((avail =? 0) || (avail <? blen (raw x))) eqn:Av.
    { apply Stop; trivial.
      - cbn [v_merge_loop]. rewrite E2. unfold k_size. cbn [k_raw]. rewrite Av. reflexivity.
      - intros a' x' r' E _ Sz. injection E as <- <- <-. apply orb_true_iff in Av. destruct Av as [Av|Av]; [apply N.eqb_eq in Av; unfold uvw in *; lia|apply N.ltb_lt in Av; lia]. }
    destruct (match prev with Some p => a <? p | None => false end) eqn:Pv.
    { apply Stop; trivial.
      - cbn [v_merge_loop]. rewrite E2. unfold k_size. cbn [k_raw k_at]. rewrite Av, Pv. reflexivity.
      - intros a' x' r' _ -> _. discriminate. }
    destruct (pop_whole mx mn Hmx0 Hmx Hmn m a x r t I R (proj1 (proj2 G))) as (m1 & t1 & P & I1 & R1 & T1 & T2).
    apply orb_false_elim in Av. destruct Av as [Av0 Av]. apply N.ltb_ge in Av.
    destruct (IH m1 r gs' (avail - (blen (raw x) - uvw)) (acc ++ frames g) (Some a) t1) as (m' & l1 & l2 & gs1 & gs2 & t' & J1 & J2 & J3 & J4 & J5 & J6 & J7 & J8 & J9 & J10 & J11 & J12); trivial.
    { cbn in L. lia. } { rewrite blen_app. unfold uvw in *. lia. }
    exists m', ((a, x) :: l1), l2, (g :: gs1), gs2, t'.
    assert (Fa : acc ++ frames (concat (g :: gs1)) = (acc ++ frames g) ++ frames (concat gs1)) by (cbn [concat]; unfold IoWriteProof.frames; rewrite flat_map_app, app_assoc; reflexivity).
    rewrite Fa. split; [|split; [cbn [app]; congruence|split; [cbn [app]; congruence|split; [cbn [map snd]; constructor; trivial|split; [trivial|split; [trivial|split; [trivial|split; [|split; [trivial|split; [|split; [trivial|discriminate]]]]]]]]]]].
    + cbn [v_merge_loop]. rewrite E2. unfold k_size, k_body. cbn [k_raw k_at]. rewrite Av0, (proj2 (N.ltb_ge _ _) Av). cbn [orb]. rewrite Pv. rewrite (proj2 (N.ltb_ge _ _)) by lia.
      rewrite Sk, blen_app, (proj2 (N.ltb_ge _ _)) by (unfold uvw in *; lia). rewrite P. exact J1.
    + intros X. rewrite (J8 X). apply T1. destruct r as [|q r]; [|discriminate]. destruct l1; [cbn [app] in J2; congruence|discriminate].
    + cbn [rising]. split; trivial. destruct prev as [p|]; trivial. apply N.ltb_ge in Pv. exact Pv.
Qed.

Lemma v_merge_spec m gs : VQ m gs -> gs <> [] -> exists m' gs', v_merge m = Ok m' /\ VQ m' gs' /\ gs' <> [] /\ concat gs' = concat gs.
Proof.
  intros H N. destruct gs as [|g gs]; [congruence|]. destruct (VQ_cons m g gs H) as (_ & k & E & _ & _ & Sz & _). unfold v_merge. rewrite E.
  destruct ((1 <? cost_number (s_lim m)) && (k_size k <=? small_size)) eqn:C; [|exists m, (g :: gs); auto].
  apply andb_true_iff in C. destruct C as [C1 C]. apply N.leb_le in C. apply N.ltb_lt in C1.
  destruct H as (l & I & F). rewrite (i_cn _ _ _ _ I) in C1. destruct l as [|[a x] r]; [cbn in C1; lia|]. destruct (VQ_ring _ _ _ _ I) as [t R].
  destruct (v_merge_loop_spec (room m) m _ (g :: gs) merge_len [] None t I F R) as (m1 & l1 & l2 & gs1 & gs2 & t' & J1 & J2 & J3 & J4 & J5 & J6 & J7 & J8 & J9 & J10 & J11 & J12).
  { pose proof (VQ_room m _ I). lia. } { reflexivity. }
  rewrite J1. cbn [app] in *.
  assert (N1 : l1 <> []).
  { apply (J12 a x r); trivial. cbn [map snd] in F. inversion F as [|? ? ? ? G F']; subst. destruct (gk_facts _ _ G) as (Lx & _). rewrite Lx, <- Sz. unfold small_size, merge_len, uvw in *. lia. }
  destruct (groups_area l1 gs1 J4) as [A1 A2]. destruct (groups_area l2 gs2 J5) as [_ A3].
  set (d := repeat 0 (N.to_nat uvw) ++ frames (concat gs1)).
  assert (Ld : blen d = uvw + blen (frames (concat gs1))) by (unfold d; rewrite blen_app; unfold blen at 1; rewrite repeat_length; reflexivity).
  assert (L1 : 1 <= N.of_nat (length l1)) by (destruct l1; [congruence|cbn [length]; lia]).
  assert (Ll : length ((a, x) :: r) = (length l1 + length l2)%nat) by (rewrite J2; apply app_length).
  destruct (push_front_block mx mn Hmx0 Hmx Hmn m1 l2 t' d) as (a' & m2 & P & I2); trivial.
  - rewrite Ld. unfold merge_len, uvw in *. lia.
  - pose proof (i_len _ _ _ _ I). lia.
  - pose proof (i_tot _ _ _ _ I) as T. rewrite J2, map_app, total_app in T. unfold uvw in *. lia.
  - rewrite (i_size _ _ _ _ J6), <- (i_size _ _ _ _ I). apply (merged_fits mx mn Hmx0 Hmx Hmn (sb_size (s_buf m)) t l1 l2); trivial.
    + rewrite <- J2. exact (r_lay _ _ _ R).
    + rewrite Ld, pad_uvw. lia.
    + intros ->. rewrite Ld, pad_uvw. cbn [length] in Ll, C1. lia.
  - rewrite P. cbn iota. exists m2, (concat gs1 :: gs2). split; [reflexivity|]. split; [|split; [congruence|rewrite J3, concat_app; reflexivity]].
    exists ((a', fresh d) :: l2). split; trivial. cbn [map snd]. constructor; trivial.
    split; [|split; [reflexivity|split; [exists (repeat 0 (N.to_nat uvw)); rewrite repeat_length; split; reflexivity|split]]].
    + destruct gs1 as [|g1 gs1]; [destruct l1; [congruence|cbn [map] in J4; inversion J4]|]. cbn [concat]. intros Em. apply app_eq_nil in Em. destruct Em as [-> _].
      destruct l1 as [|[b y] l1]; [congruence|]. cbn [map snd] in J4. inversion J4 as [|? ? ? ? G]; subst. exact (proj1 G eq_refl).
    + assert (merge_len < 2 ^ 32) by reflexivity. lia.
    + clear - J4. revert J4. generalize (map snd l1). intros q J4. induction J4 as [|y g q gs G F IH]; [constructor|]. cbn [concat]. apply Forall_app. split; [apply G|trivial].
Qed.

Lemma VQ_empty m gs : VQ m gs -> static_empty (s_buf m) = true -> gs = [].
Proof. intros H E. destruct gs as [|g gs]; trivial. destruct (VQ_cons m g gs H) as [X _]. congruence. Qed.
Lemma VQ_length m gs : VQ m gs -> (length gs < room m)%nat.
Proof.
  intros (l & I & F). pose proof (VQ_room m l I) as L. assert (E : forall (p : list blk) q, Forall2 gk p q -> length p = length q) by (induction 1; cbn [length]; congruence).
  rewrite <- (E _ _ F), map_length. exact L.
Qed.

Lemma v_try_spec fuel uv s gs : VQ (v_q s) gs -> v_writing s = false -> v_closing s = false -> (0 < fuel)%nat ->
  gs = [] /\ v_try fuel uv s = Ok (s, SUCCESS, []) \/
  exists m g gs', concat (g :: gs') = concat gs /\ gs <> [] /\ VQ m (g :: gs') /\
    (uv = 0%Z /\ v_try fuel uv s = Ok (vset_writing (vset_q s m) true, SUCCESS, [OWrite (frames g)]) \/
     uv <> 0%Z /\ v_try fuel uv s = Ok (vset_q s m, E_WRITE_FAILED, [])).
Proof.
  intros H W C Fu. destruct gs as [|g0 gs0].
  { left. split; trivial. destruct (VQ_nil _ H) as [E _]. destruct fuel; cbn [v_try]; rewrite W, E; reflexivity. }
  right. assert (Ne : g0 :: gs0 <> []) by congruence. set (gs := g0 :: gs0) in *.
  assert (Em : static_empty (s_buf (v_q s)) = false) by (destruct (VQ_cons _ _ _ H); trivial).
  destruct (v_merge_spec _ _ H Ne) as (m & gs' & Mg & Qm & Nm & Cm). destruct gs' as [|g gs']; [congruence|]. exists m, g, gs'. split; trivial. split; trivial. split; trivial.
  destruct fuel as [|f]; [lia|]. cbn [v_try]. rewrite W, Em, C, Mg.
  destruct (VQ_cons m g gs' Qm) as (_ & k & E & Uz & Bo & Sz & B1 & B2 & _). rewrite E, (proj2 (N.leb_gt _ _)) by lia.
  destruct (Z.eqb_spec uv 0) as [->|X]; [left|right; auto]. split; trivial.
  rewrite Bo, Sz, N.add_comm, N.add_sub, N.mod_small by exact B2. unfold blen. now rewrite handed_all.
Qed.

Lemma v_push_group m gs p : VQ m gs -> short p -> p <> [] ->
  exists c m', v_push static_push_back m (block_of hash p) = Ok (c, m') /\ (c = SUCCESS /\ VQ m' (gs ++ [[p]]) \/ c = BUFF_LIMIT /\ VQ m' gs).
Proof.
  intros (l & I & F) S N. rewrite (block_of_frame hash p). set (d := repeat 0 (N.to_nat uvw) ++ frame p).
  assert (Ld : blen d = uvw + blen (frame p)) by (unfold d; rewrite blen_app; unfold blen at 1; rewrite repeat_length; reflexivity).
  pose proof (frame_len mx hash Hh Hmx' p S) as [F1 F2]. unfold short in S.
  destruct (push_back_block mx mn Hmx0 Hmx Hmn m l d) as (c & m' & P & X); trivial.
  { fold (blen d). rewrite Ld. unfold uvw. assert (2 ^ 31 + 300 < 2 ^ 60) by reflexivity. lia. }
  exists c, m'. split; trivial. destruct X as [(-> & a & I')|(-> & I' & _)]; [left|right; split; [trivial|exists l; auto]]. split; trivial.
  exists (l ++ [(a, fresh d)]). split; trivial. rewrite map_app. apply Forall2_app; trivial. cbn [map snd]. constructor; [|constructor].
  assert (Fp : frames [p] = frame p) by (unfold IoWriteProof.frames; cbn [flat_map]; apply app_nil_r).
  split; [congruence|]. split; [reflexivity|]. rewrite Fp. split; [exists (repeat 0 (N.to_nat uvw)); rewrite repeat_length; split; reflexivity|].
  split; [assert (2 ^ 31 + 14 < 2 ^ 32) by reflexivity; lia|]. constructor; [exact S|constructor].
Qed.

(** ** The trace invariant *)
(** [ex]: messages queued whose send has not returned yet. *)
Definition VCore (s : vx) (t : list wout) (ex : list bytes) : Prop :=
  exists gs fly can, VQ (v_q s) gs /\ accepted t ++ ex = reported t ++ concat gs /\ reported t = succeeded t ++ can /\
    wire t = frames (succeeded t ++ fly) /\ Forall short (accepted t ++ ex) /\
    (v_writing s = true -> can = [] /\ (exists gs', gs = fly :: gs') /\ in_flight t (frames fly)) /\
    (v_writing s = false -> fly = []) /\ (can <> [] -> gs = [] /\ v_closing s = true).

Definition vsame_flags (s s' : vx) : Prop := v_closing s' = v_closing s /\ v_st s' = v_st s.

Lemma v_try_core uv s t ex : VCore s t ex ->
  match v_try_all uv s with
  | Crash => False
  | Ok (s', c, o) => VCore s' (t ++ o) ex /\ (c = 0 \/ c = -603)%Z /\ vsame_flags s s' /\
      (uv = 0%Z -> c = 0%Z /\ (v_writing s' = false -> static_empty (s_buf (v_q s')) = true)) /\ (v_closing s = true -> v_writing s' = v_writing s)
  end.
Proof.
  intros (gs & fly & can & H1 & H2 & H3 & H4 & H5 & H6 & H7 & H8). unfold v_try_all.
  destruct (v_writing s) eqn:W.
  { cbn [v_try]. rewrite W. rewrite app_nil_r. split; [exists gs, fly, can; rewrite W; auto 10|]. split; [now left|]. split; [split; trivial|]. split; [|auto].
    intros _. split; trivial. congruence. }
  destruct (v_closing s) eqn:C.
  - destruct (static_empty (s_buf (v_q s))) eqn:E.
    { cbn [v_try]. rewrite W, E. rewrite app_nil_r. split; [exists gs, fly, can; rewrite W, C; auto 10|]. split; [now left|]. split; [split; trivial|]. split; [auto|auto]. }
    cbn [v_try]. rewrite W, E, C. destruct (v_cancel_spec (room (v_q s)) (v_q s) gs H1 ltac:(pose proof (VQ_length _ _ H1); lia)) as (m' & -> & Q').
    destruct gs as [|g gs']; [destruct (VQ_nil _ H1); congruence|]. assert (can = []) as -> by (destruct can; [trivial|destruct H8; [congruence|discriminate]]).
    destruct (marks_cancel (concat (g :: gs'))) as (M1 & M2 & M3 & M4).
    split; [|split; [now left|split; [split; trivial|split; [|auto]]]].
    + exists [], [], (concat (g :: gs')). cbn [v_q vset_q v_writing v_closing]. rewrite accepted_app, reported_app, succeeded_app, wire_app, M1, M2, M3, M4. rewrite !app_nil_r in *.
      split; trivial. split; [exact H2|]. split; [congruence|]. rewrite (H7 eq_refl), app_nil_r in H4. split; trivial. split; trivial.
      split; [congruence|]. split; auto.
    + intros _. split; trivial. intros _. cbn [v_q vset_q]. exact (proj1 (VQ_nil _ Q')).
  - assert (F0 : (0 < S (room (v_q s)))%nat) by lia.
    destruct (v_try_spec _ uv s gs H1 W C F0) as [(X1 & X)|(m & g & gs' & X1 & X2 & X3 & X4)].
    + rewrite X, app_nil_r. split; [exists gs, fly, can; rewrite W, C; auto 10|]. split; [now left|]. split; [split; trivial|]. split; [|congruence]. intros _. split; trivial. intros _.
      subst gs. exact (proj1 (VQ_nil _ H1)).
    + assert (can = []) as -> by (destruct can; [trivial|destruct H8; congruence]). specialize (H7 eq_refl). subst fly. rewrite !app_nil_r in *.
      destruct X4 as [[-> ->]|[U ->]].
      * split; [|split; [now left|split; [split; trivial|split; [|congruence]]]].
        -- exists (g :: gs'), g, []. cbn [v_q vset_q vset_writing v_writing v_closing]. rewrite accepted_app, reported_app, succeeded_app, wire_app.
           cbn [accepted reported succeeded wire flat_map taken app]. rewrite !app_nil_r. rewrite X1. split; trivial. split; trivial. split; trivial.
           split; [now rewrite H4, frames_app|]. split; trivial. split; [|split; congruence]. intros _. split; trivial. split; [eauto|]. exists t, []. auto.
        -- intros _. split; trivial. discriminate.
      * split; [|split; [now right|split; [split; trivial|split; [congruence|congruence]]]].
        exists (g :: gs'), [], []. cbn [v_q vset_q v_writing v_closing]. rewrite !app_nil_r, X1. split; trivial. split; trivial. split; trivial. split; trivial. split; trivial.
        rewrite W. split; [congruence|]. split; [trivial|congruence].
Qed.

(** Sends and disconnects made while a write is in progress. *)
Definition vlater (s s' : vx) : Prop :=
  v_writing s' = v_writing s /\ (v_closing s = true -> v_closing s' = true) /\
  (v_st s' = v_st s \/ v_st s = Connected /\ v_st s' = Disconnecting) /\
  (v_closing s' = true -> v_closing s = true \/ v_st s' <> Connected).
Lemma vlater_refl s : vlater s s. Proof. repeat split; auto. Qed.
Lemma vlater_trans a b c : vlater a b -> vlater b c -> vlater a c.
Proof.
  intros (A1 & A2 & A3 & A4) (B1 & B2 & B3 & B4). split; [congruence|]. split; [auto|]. split.
  - destruct A3 as [A3|[A3 A3']], B3 as [B3|[B3 B3']]; [left; congruence|right; split; congruence|right; split; congruence|congruence].
  - intros C. destruct (B4 C) as [B|B]; [|auto]. destruct (A4 B) as [A|A]; [auto|]. right. destruct B3 as [B3|[_ B3]]; congruence.
Qed.
Lemma v_send_writing s gs p uv : v_writing s = true -> VQ (v_q s) gs -> short p ->
  exists s1 c new, v_send limit hash s p uv = Ok (s1, [OSend p c]) /\ taken (OSend p c) = new /\ Forall short new /\ VQ (v_q s1) (gs ++ map (fun m => [m]) new) /\
    vlater s s1 /\ v_closing s1 = v_closing s /\ v_st s1 = v_st s.
Proof.
  intros W H S. unfold v_send.
  assert (Same : forall m c, VQ m gs -> taken (OSend p c) = [] -> exists s1 c0 new, Ok (vset_q s m, [OSend p c]) = Ok (s1, [OSend p c0]) /\ taken (OSend p c0) = new /\ Forall short new /\ VQ (v_q s1) (gs ++ map (fun m => [m]) new) /\
    vlater s s1 /\ v_closing s1 = v_closing s /\ v_st s1 = v_st s).
  { intros m c Hm E. exists (vset_q s m), c, []. split; trivial. split; trivial. split; [constructor|]. cbn [map]. rewrite app_nil_r. split; trivial. split; [repeat split; auto|]. split; trivial. }
  pose proof (fun c => Same (v_q s) c H) as Same0. assert (Id : vset_q s (v_q s) = s) by (destruct s; reflexivity). rewrite Id in Same0.
  destruct ((0 <? limit) && (limit <? blen p)); [apply Same0; destruct p; reflexivity|].
  destruct (v_st s) eqn:St; [|apply Same0; destruct p; reflexivity..].
  destruct p as [|x p0].
  - unfold v_try_all. cbn [v_try]. rewrite W. cbn [app]. exact (Same0 0%Z eq_refl).
  - set (p := x :: p0) in *. destruct (v_push_group _ _ p H S ltac:(discriminate)) as (c & m & -> & [(-> & Qm)|(-> & Qm)]).
    + change ((SUCCESS <? 0)%Z) with false. cbn iota. unfold v_try_all. cbn [v_try v_writing vset_q]. rewrite W. cbn [app].
      exists (vset_q s m), 0%Z, [p]. split; trivial. split; [reflexivity|]. split; [constructor; [trivial|constructor]|]. split; [exact Qm|]. split; [repeat split; auto|]. split; trivial.
    + change ((BUFF_LIMIT <? 0)%Z) with true. apply Same; [trivial|reflexivity].
Qed.
Lemma v_disc_later s f : let (s1, o) := v_disc s f in
  vlater s s1 /\ v_q s1 = v_q s /\ accepted o = [] /\ reported o = [] /\ succeeded o = [] /\ wire o = [] /\ (v_writing s = true -> f = false -> v_closing s1 = v_closing s /\ ~ In OClose o) /\
  (v_closing s = false -> (v_closing s1 = true <-> In OClose o)).
Proof.
  unfold v_disc. destruct (v_st s) eqn:St.
  2, 3: split; [apply vlater_refl|]; split; trivial; split; trivial; split; trivial; split; trivial; split; trivial; split; [auto|]; intros ->; split; [discriminate|contradiction].
  cbn [v_writing vset_st]. destruct (negb f && v_writing s) eqn:B.
  - split; [|]. { split; [reflexivity|]. cbn [v_closing vset_st v_st]. split; [auto|]. split; [right; auto|auto]. }
    split; trivial. split; trivial. split; trivial. split; trivial. split; trivial. split; [auto|]. cbn [v_closing vset_st]. intros ->. split; [discriminate|contradiction].
  - unfold v_disc_run. cbn [v_closing vset_st]. destruct (v_closing s) eqn:C.
    + split; [|]. { split; [reflexivity|]. cbn [v_closing vset_st v_st]. split; [auto|]. split; [right; auto|auto]. }
      split; trivial. split; trivial. split; trivial. split; trivial. split; trivial. split; [auto|discriminate].
    + split; [|]. { split; [reflexivity|]. cbn [v_closing vset_closing vset_st v_st]. split; [auto|]. split; [right; auto|intros _; right; discriminate]. }
      split; trivial. split; trivial. split; trivial. split; trivial. split; trivial.
      split. { intros W ->. rewrite W in B. discriminate. }
      intros _. cbn. tauto.
Qed.

Lemma v_acts_spec l : forall s gs, v_writing s = true -> VQ (v_q s) gs -> Forall short_act l ->
  exists s1 o, v_acts limit hash s l = Ok (s1, o) /\ quiet o /\ Forall short (accepted o) /\ VQ (v_q s1) (gs ++ map (fun m => [m]) (accepted o)) /\ vlater s s1 /\
    (forallb (fun a => negb (forced a)) l = true -> v_closing s1 = v_closing s).
Proof.
  induction l as [|a l IH]; intros s gs W H F.
  - exists s, []. cbn [v_acts]. split; trivial. split; [repeat split|]. split; [constructor|]. cbn [accepted flat_map map]. rewrite app_nil_r. split; trivial. split; [apply vlater_refl|].
    auto.
  - inversion F as [|? ? F1 F2]; subst. cbn [v_acts].
    assert (St : exists s1 o1, match a with ASend p _ => v_send limit hash s p 0 | ADisc f => Ok (v_disc s f) end = Ok (s1, o1) /\ quiet o1 /\ Forall short (accepted o1) /\
       VQ (v_q s1) (gs ++ map (fun m => [m]) (accepted o1)) /\ vlater s s1 /\ (negb (forced a) = true -> v_closing s1 = v_closing s)).
    { destruct a as [p ok|f].
      - destruct (v_send_writing s gs p 0%Z W H F1) as (s1 & c & new & E & T & Sh & Q1 & L1 & C1 & _). exists s1, [OSend p c].
        assert (A : accepted [OSend p c] = new) by (unfold accepted; cbn [flat_map]; now rewrite app_nil_r). rewrite A. split; trivial. split; [repeat split|]. auto 8.
      - pose proof (v_disc_later s f) as D. destruct (v_disc s f) as [s1 o1]. destruct D as (D1 & D2 & D3 & D4 & D5 & D6 & D7 & _). exists s1, o1. split; trivial.
        split; [repeat split; trivial|]. rewrite D3, D2. cbn [map]. rewrite app_nil_r. split; [constructor|]. split; trivial. split; trivial.
        intros Nf. apply D7; trivial. destruct f; [discriminate|trivial]. }
    destruct St as (s1 & o1 & -> & (K1 & K2 & K3) & S1 & Q1 & L1 & G1).
    destruct (IH s1 _ (eq_trans (proj1 L1) W) Q1 F2) as (s2 & o2 & -> & (J1 & J2 & J3) & S2 & Q2 & L2 & G2).
    exists s2, (o1 ++ o2). split; trivial. split; [unfold quiet; rewrite reported_app, succeeded_app, wire_app, K1, K2, K3; auto|].
    rewrite accepted_app. split; [apply Forall_app; auto|]. rewrite map_app, app_assoc. split; trivial. split; [apply (vlater_trans _ s1); trivial|].
    cbn [forallb]. intros X. apply andb_true_iff in X. destruct X as [X1 X2]. rewrite (G2 X2). auto.
Qed.
Lemma v_callbacks_spec uv ms : forall acts s gs, v_writing s = true -> VQ (v_q s) gs -> Forall (Forall short_act) acts ->
  exists s1 o, v_callbacks limit hash s uv ms acts = Ok (s1, o) /\ reported o = ms /\ succeeded o = ms /\ wire o = [] /\ Forall short (accepted o) /\
    VQ (v_q s1) (gs ++ map (fun m => [m]) (accepted o)) /\ vlater s s1 /\
    (forallb (forallb (fun a => negb (forced a))) acts = true -> v_closing s1 = v_closing s).
Proof.
  induction ms as [|p ms IH]; intros acts s gs W H F.
  - exists s, []. cbn [v_callbacks]. split; trivial. split; trivial. split; trivial. split; trivial. split; [constructor|]. cbn [accepted flat_map map]. rewrite app_nil_r. split; trivial. split; [apply vlater_refl|].
    auto.
  - cbn [v_callbacks]. assert (F1 : Forall short_act (hd [] acts)) by (destruct F; [constructor|trivial]). assert (F2 : Forall (Forall short_act) (tl acts)) by (destruct F; [constructor|trivial]).
    destruct (v_acts_spec _ s gs W H F1) as (s1 & o1 & -> & (K1 & K2 & K3) & S1 & Q1 & L1 & G1).
    destruct (IH _ s1 _ (eq_trans (proj1 L1) W) Q1 F2) as (s2 & o2 & -> & J1 & J2 & J3 & S2 & Q2 & L2 & G2).
    exists s2, (ODone uv SUCCESS p :: o1 ++ o2). split; trivial.
    change (reported (ODone uv SUCCESS p :: o1 ++ o2)) with (p :: reported (o1 ++ o2)). change (succeeded (ODone uv SUCCESS p :: o1 ++ o2)) with (p :: succeeded (o1 ++ o2)).
    change (wire (ODone uv SUCCESS p :: o1 ++ o2)) with (wire (o1 ++ o2)). change (accepted (ODone uv SUCCESS p :: o1 ++ o2)) with (accepted (o1 ++ o2)).
    rewrite reported_app, succeeded_app, wire_app, accepted_app, K1, K2, K3, J1, J2, J3. split; trivial. split; trivial. split; trivial. split; [apply Forall_app; auto|].
    rewrite map_app, app_assoc. split; trivial. split; [apply (vlater_trans _ s1); trivial|].
    destruct acts as [|a acts]; cbn [hd tl forallb] in *; [intros _; rewrite (G2 eq_refl); auto|]. intros X. apply andb_true_iff in X. destruct X as [X1 X2]. rewrite (G2 X2). auto.
Qed.

Definition vflags (s : vx) : Prop :=
  (v_closing s = true -> v_st s <> Connected) /\ (v_st s = Disconnected -> v_closing s = true /\ v_writing s = false) /\
  (v_st s = Disconnecting -> v_writing s = false -> v_closing s = true).
(** No synchronous write failure so far: nothing waits unless a write is in progress. *)
Definition vflow (s : vx) : Prop := v_writing s = false -> static_empty (s_buf (v_q s)) = true.
(** Only gentle disconnects so far: closing starts when nothing is left. *)
Definition vgentle (s : vx) : Prop := v_closing s = true -> v_writing s = false /\ static_empty (s_buf (v_q s)) = true.
Definition VInv (s : vx) (t : list wout) : Prop := VCore s t [] /\ vflags s /\ (v_closing s = true <-> In OClose t) /\ (v_st s = Disconnected <-> In OClosed t).

Lemma v_core_push s t m gs p fly can : VQ m (gs ++ [[p]]) -> short p -> p <> [] ->
  accepted t ++ [] = reported t ++ concat gs -> reported t = succeeded t ++ can -> wire t = frames (succeeded t ++ fly) -> Forall short (accepted t ++ []) ->
  (v_writing s = true -> can = [] /\ (exists gs', gs = fly :: gs') /\ in_flight t (frames fly)) -> (v_writing s = false -> fly = []) -> can = [] ->
  VCore (vset_q s m) t [p].
Proof.
  intros H1 H2 H3 H4 H5 H6 H7 H8 H9 H10. exists (gs ++ [[p]]), fly, can. cbn [v_q vset_q v_writing v_closing]. rewrite app_nil_r in *. split; trivial. split; [rewrite concat_app, H4; cbn [concat]; now rewrite app_nil_r, <- app_assoc|].
  split; trivial. split; trivial. split; [apply Forall_app; split; [trivial|constructor; [trivial|constructor]]|]. split; [|split; [trivial|congruence]].
  intros W. destruct (H8 W) as (A & (gs' & ->) & B). split; trivial. split; [|trivial]. cbn [app]. eauto.
Qed.

Lemma v_core_log s t p c : VCore s t (taken (OSend p c)) -> VCore s (t ++ [OSend p c]) [].
Proof.
  intros (gs & fly & can & H1 & H2 & H3 & H4 & H5 & H6 & H7 & H8). exists gs, fly, can. rewrite accepted_app, reported_app, succeeded_app, wire_app.
  assert (A : accepted [OSend p c] = taken (OSend p c)) by (unfold accepted; cbn [flat_map]; apply app_nil_r). rewrite A.
  cbn [reported succeeded wire flat_map]. rewrite !app_nil_r. split; trivial. split; trivial. split; trivial. split; trivial. split; trivial.
  split; [|split; trivial]. intros W. destruct (H6 W) as (X & Y & Z). split; trivial. split; trivial. apply in_flight_more; trivial.
Qed.
Lemma v_core_quiet s s' t o : VCore s t [] -> accepted o = [] -> quiet o -> v_q s' = v_q s -> v_writing s' = v_writing s -> (v_closing s = true -> v_closing s' = true) -> VCore s' (t ++ o) [].
Proof.
  intros (gs & fly & can & H1 & H2 & H3 & H4 & H5 & H6 & H7 & H8) A (R & S & W) E1 E2 E3. exists gs, fly, can. rewrite accepted_app, reported_app, succeeded_app, wire_app, A, R, S, W, E1, E2, !app_nil_r in *.
  split; trivial. split; trivial. split; trivial. split; trivial. split; trivial. split; [|split; [trivial|]].
  - intros X. destruct (H6 X) as (Y & Z & T). split; trivial. split; trivial. apply in_flight_more; trivial.
  - intros X. destruct (H8 X). auto.
Qed.

Lemma v_try_outs uv s s' c o : v_try_all uv s = Ok (s', c, o) -> ~ In OClose o /\ ~ In OClosed o.
Proof.
  unfold v_try_all. generalize (S (room (v_q s))). intros n. revert s s' c o.
  assert (Cn : forall f m m' o, v_cancel f m = Ok (m', o) -> ~ In OClose o /\ ~ In OClosed o).
  { induction f as [|f IH]; intros m m' o E; cbn [v_cancel] in E; destruct (s_front m) as [[k|]|]; try discriminate.
    - assert (o = []) by congruence. subst. auto.
    - destruct (k_size k <? uvw); [discriminate|]. destruct (block_msgs (length (k_body k)) (k_body k)) as [ms|]; [|discriminate].
      destruct (v_pop m (k_size k)) as [m1|]; [|discriminate].
      destruct (v_cancel f m1) as [[m2 o1]|] eqn:E1; [|discriminate]. assert (o = map (fun p => ODone UV_ECANCELED E_CLOSING p) ms ++ o1) by congruence. subst o.
      destruct (IH _ _ _ E1) as [I1 I2]. split; intros X; apply in_app_or in X; destruct X as [X|X]; try contradiction; apply in_map_iff in X; destruct X as (y & Y & _); discriminate.
    - assert (o = []) by congruence. subst. auto. }
  induction n as [|n IH]; intros s s' c o E; cbn [v_try] in E; (destruct (v_writing s); [assert (o = []) by congruence; subst; auto|]);
    (destruct (static_empty (s_buf (v_q s))); [assert (o = []) by congruence; subst; auto|]);
    (destruct (v_closing s); [destruct (v_cancel (room (v_q s)) (v_q s)) as [[m1 o1]|] eqn:E1; [|discriminate]; assert (o = o1) by congruence; subst; eauto|]);
    (destruct (v_merge (v_q s)) as [m|]; [|discriminate]); destruct (s_front m) as [[k|]|]; try discriminate.
  destruct (k_size k <=? uvw); [destruct (v_pop m (k_size k)); [eauto|discriminate]|]. destruct (uv =? 0)%Z.
  - assert (o = [OWrite (handed ((k_size k - uvw) mod 2 ^ 32) (k_body k))]) by congruence. subst o. split; intros [X|[]]; discriminate.
  - assert (o = []) by congruence. subst; auto.
Qed.

Lemma v_try_silent uv s s' c o : v_try_all uv s = Ok (s', c, o) -> v_closing s = false -> reported o = succeeded o.
Proof.
  unfold v_try_all. generalize (S (room (v_q s))). intros n. revert s s' c o.
  induction n as [|n IH]; intros s s' c o E C; cbn [v_try] in E; (destruct (v_writing s); [assert (o = []) by congruence; subst; auto|]);
    (destruct (static_empty (s_buf (v_q s))); [assert (o = []) by congruence; subst; auto|]); rewrite C in E;
    (destruct (v_merge (v_q s)) as [m|]; [|discriminate]); destruct (s_front m) as [[k|]|]; try discriminate.
  destruct (k_size k <=? uvw); [destruct (v_pop m (k_size k)); [eauto|discriminate]|]. destruct (uv =? 0)%Z.
  - assert (o = [OWrite (handed ((k_size k - uvw) mod 2 ^ 32) (k_body k))]) by congruence. subst o. reflexivity.
  - assert (o = []) by congruence. subst; auto.
Qed.

Lemma v_send_inv s t p uv : VInv s t -> short p ->
  match v_send limit hash s p uv with
  | Crash => False
  | Ok (s', o) => VInv s' (t ++ o) /\ (uv = 0%Z -> vflow s -> vflow s') /\ (vgentle s -> vgentle s')
  end.
Proof.
  intros (Co & Fl & Cl & Cd) S. unfold v_send.
  assert (Same : forall m, VCore (vset_q s m) t [] -> (static_empty (s_buf (v_q s)) = true -> static_empty (s_buf m) = true) -> forall c, taken (OSend p c) = [] ->
    VInv (vset_q s m) (t ++ [OSend p c]) /\ (uv = 0%Z -> vflow s -> vflow (vset_q s m)) /\ (vgentle s -> vgentle (vset_q s m))).
  { intros m Cm Em c E. split; [|split; [intros _ X W; exact (Em (X W))|intros X C; destruct (X C); split; auto]].
    split; [apply v_core_log; rewrite E; exact Cm|]. split; [exact Fl|]. split; (etransitivity; [eassumption|]); split; intros X; try (apply in_or_app; now left);
      apply in_app_or in X; destruct X as [X|[X|[]]]; trivial; discriminate. }
  assert (Id : vset_q s (v_q s) = s) by (destruct s; reflexivity).
  assert (Same0 : forall c, taken (OSend p c) = [] -> VInv s (t ++ [OSend p c]) /\ (uv = 0%Z -> vflow s -> vflow s) /\ (vgentle s -> vgentle s)).
  { intros c E. pose proof (Same (v_q s)) as X. rewrite Id in X. apply X; auto. }
  destruct ((0 <? limit) && (limit <? blen p)); [apply Same0; destruct p; reflexivity|].
  destruct (v_st s) eqn:St; [|apply Same0; destruct p; reflexivity..].
  assert (NC : v_closing s = false) by (destruct (v_closing s) eqn:X; trivial; destruct Fl as [Fl _]; elim (Fl X); trivial).
  assert (Go : forall s0 ex, VCore s0 t ex -> ex = (match p with [] => [] | _ => [p] end) -> vsame_flags s s0 -> v_writing s0 = v_writing s ->
    match match v_try_all uv s0 with Crash => Crash | Ok (s', c, o) => Ok (s', o ++ [OSend p c]) end with
    | Crash => False
    | Ok (s', o) => VInv s' (t ++ o) /\ (uv = 0%Z -> vflow s -> vflow s') /\ (vgentle s -> vgentle s')
    end).
  { intros s0 ex C0 Ee [E1 E2] E3. pose proof (v_try_core uv s0 t ex C0) as T. destruct (v_try_all uv s0) as [[[s' c] o]|] eqn:Et; trivial.
    destruct T as (T1 & T2 & [T3 T3'] & T4 & T5). destruct (v_try_outs _ _ _ _ _ Et) as [O1 O2]. rewrite app_assoc.
    assert (Et2 : ex = taken (OSend p c)) by (rewrite Ee; destruct p; [reflexivity|]; unfold taken; destruct T2 as [-> | ->]; reflexivity).
    split; [|split].
    - split; [apply v_core_log; rewrite <- Et2; exact T1|]. split; [|split].
      + split; [rewrite T3, E1, NC; discriminate|]. rewrite T3', E2, St. split; discriminate.
      + rewrite T3, E1. rewrite Cl, !in_app_iff. cbn [In]. split; [tauto|]. intros [[X|X]|[X|[]]]; trivial; [contradiction|discriminate].
      + rewrite T3', E2, St, Cd, !in_app_iff. cbn [In]. split; [tauto|]. intros [[X|X]|[X|[]]]; trivial; [contradiction|discriminate].
    - intros U _. exact (proj2 (T4 U)).
    - intros _ X. rewrite T3, E1, NC in X. discriminate. }
  destruct p as [|x p0]; [apply (Go s []); trivial; split; trivial|]. set (p := x :: p0) in *.
  destruct Co as (gs & fly & can & H1 & H2 & H3 & H4 & H5 & H6 & H7 & H8).
  destruct (v_push_group _ _ p H1 S ltac:(discriminate)) as (c & m & -> & [(-> & Qm)|(-> & Qm)]).
  - change ((SUCCESS <? 0)%Z) with false. cbn iota. apply (Go (vset_q s m) [p]); [|reflexivity|split; trivial|trivial].
    apply (v_core_push s t m gs p fly can); trivial; [discriminate|]. destruct can; trivial. destruct H8; congruence.
  - change ((BUFF_LIMIT <? 0)%Z) with true. apply (Same m); [exists gs, fly, can; cbn [v_q vset_q v_writing v_closing]; auto 10| |destruct p; reflexivity].
    intros X. rewrite (VQ_empty _ _ H1 X) in Qm. exact (proj1 (VQ_nil _ Qm)).
Qed.

Lemma v_acts_outs l : forall s s1 o, v_writing s = true -> (exists gs, VQ (v_q s) gs) -> Forall short_act l -> v_acts limit hash s l = Ok (s1, o) ->
  ~ In OClosed o /\ (v_closing s1 = true <-> v_closing s = true \/ In OClose o).
Proof.
  induction l as [|a l IH]; intros s s1 o W [gs H] F E; cbn [v_acts] in E.
  - assert (s1 = s /\ o = []) as [-> ->] by (split; congruence). split; [auto|]. cbn [In]. tauto.
  - inversion F as [|? ? F1 F2]; subst.
    assert (St : forall s2 o2, match a with ASend p _ => v_send limit hash s p 0 | ADisc f => Ok (v_disc s f) end = Ok (s2, o2) ->
      ~ In OClosed o2 /\ (v_closing s2 = true <-> v_closing s = true \/ In OClose o2) /\ v_writing s2 = true /\ exists gs2, VQ (v_q s2) gs2).
    { intros s2 o2 E2. destruct a as [p ok|f].
      - destruct (v_send_writing s gs p 0%Z W H F1) as (s3 & c & new & E3 & _ & _ & Q3 & L3 & C3 & _). rewrite E3 in E2. assert (s2 = s3 /\ o2 = [OSend p c]) as [-> ->] by (split; congruence).
        split; [intros [X|[]]; discriminate|]. rewrite C3. split; [split; [auto|intros [X|[X|[]]]; [trivial|discriminate]]|]. split; [rewrite (proj1 L3); trivial|eauto].
      - assert (v_disc s f = (s2, o2)) by congruence. pose proof (v_disc_later s f) as D. rewrite H0 in D. destruct D as (D1 & D2 & _ & _ & _ & _ & _ & D8).
        split. { unfold v_disc, v_disc_run in H0. destruct (v_st s); [|assert (o2 = []) by congruence; subst; auto..]. destruct (negb f && v_writing (vset_st s Disconnecting)); [assert (o2 = []) by congruence; subst; auto|].
          destruct (v_closing (vset_st s Disconnecting)); [assert (o2 = []) by congruence; subst; auto|]. assert (o2 = [OClose]) by congruence. subst. intros [X|[]]; discriminate. }
        split. { destruct (v_closing s) eqn:C; [|rewrite D8 by trivial; split; [auto|intros [X|X]; [discriminate|trivial]]]. split; [auto|]. intros _. apply D1. trivial. }
        split; [rewrite (proj1 D1); trivial|rewrite D2; eauto]. }
    destruct (match a with ASend p _ => v_send limit hash s p 0 | ADisc f => Ok (v_disc s f) end) as [[s2 o2]|]; [|discriminate].
    destruct (St _ _ eq_refl) as (A1 & A2 & A3 & A4). destruct (v_acts limit hash s2 l) as [[s3 o3]|] eqn:E3; [|discriminate].
    assert (s1 = s3 /\ o = o2 ++ o3) as [-> ->] by (split; congruence). destruct (IH _ _ _ A3 A4 F2 E3) as [B1 B2]. rewrite !in_app_iff. split; [tauto|]. rewrite B2, A2. tauto.
Qed.
Lemma v_callbacks_outs uv ms : forall acts s s1 o, v_writing s = true -> (exists gs, VQ (v_q s) gs) -> Forall (Forall short_act) acts -> v_callbacks limit hash s uv ms acts = Ok (s1, o) ->
  ~ In OClosed o /\ (v_closing s1 = true <-> v_closing s = true \/ In OClose o).
Proof.
  induction ms as [|p ms IH]; intros acts s s1 o W [gs H] F E; cbn [v_callbacks] in E.
  - assert (s1 = s /\ o = []) as [-> ->] by (split; congruence). split; [auto|]. cbn [In]. tauto.
  - assert (F1 : Forall short_act (hd [] acts)) by (destruct F; [constructor|trivial]). assert (F2 : Forall (Forall short_act) (tl acts)) by (destruct F; [constructor|trivial]).
    destruct (v_acts_spec _ s gs W H F1) as (s2 & o2 & E2 & _ & _ & Q2 & L2 & _). rewrite E2 in E. destruct (v_acts_outs _ _ _ _ W (ex_intro _ gs H) F1 E2) as [A1 A2].
    destruct (v_callbacks limit hash s2 uv ms (tl acts)) as [[s3 o3]|] eqn:E3; [|discriminate].
    assert (s1 = s3 /\ o = ODone uv SUCCESS p :: o2 ++ o3) as [-> ->] by (split; congruence).
    destruct (IH _ _ _ _ (eq_trans (proj1 L2) W) (ex_intro _ _ Q2) F2 E3) as [B1 B2]. cbn [In]. rewrite !in_app_iff. split; [intros [X|X]; [discriminate|tauto]|].
    rewrite B2, A2. split; [tauto|]. intros [X|[X|[X|X]]]; auto. discriminate.
Qed.

Lemma v_done_inv s t uv acts uv' : VInv s t -> v_writing s = true -> Forall (Forall short_act) acts ->
  match v_done limit hash s uv acts uv' with
  | Crash => False
  | Ok (s', o) => VInv s' (t ++ o) /\ (uv' = 0%Z -> vflow s') /\ (uv' = 0%Z -> forallb (forallb (fun a => negb (forced a))) acts = true -> vgentle s -> vgentle s')
  end.
Proof.
  intros (Co & Fl & Cl & Cd) W F. destruct Co as (gs & fly & can & H1 & H2 & H3 & H4 & H5 & H6 & H7 & H8). destruct (H6 W) as (-> & (gs' & ->) & If).
  assert (ND : v_st s <> Disconnected) by (intros X; destruct Fl as (_ & Fl & _); destruct (Fl X); congruence).
  unfold v_done. destruct (VQ_cons _ _ _ H1) as (_ & k & E & Uz & Bo & Sz & B1 & B2 & Sg & Ne & _). rewrite E, Uz. cbn [N.eqb negb].
  rewrite (proj2 (N.eqb_neq _ _)), (proj2 (N.ltb_ge _ _)) by (unfold uvw in *; lia).
  rewrite Bo, (block_msgs_frames mx hash Hh Hmx') by trivial.
  destruct (v_callbacks_spec uv fly acts s _ W H1 F) as (s1 & o & E1 & R1 & R2 & R3 & Sh & Q1 & L1 & G1). rewrite E1.
  destruct (v_callbacks_outs _ _ _ _ _ _ W (ex_intro _ _ H1) F E1) as [N1 N2].
  cbn [app] in Q1. destruct (VQ_cons _ _ _ Q1) as (_ & k1 & _ & _ & _ & Sz1 & _ & _ & _ & _ & m & P1 & P3). rewrite <- Sz in Sz1. rewrite Sz1 in P1. rewrite P1.
  rewrite app_nil_r in H3.
  assert (C1 : VCore (vset_writing (vset_q s1 m) false) (t ++ o) []).
  { exists (gs' ++ map (fun m => [m]) (accepted o)), [], []. cbn [v_q vset_q vset_writing v_writing v_closing]. rewrite accepted_app, reported_app, succeeded_app, wire_app, R1, R2, R3, !app_nil_r in *.
    split; trivial. split. { rewrite concat_app, H2. cbn [concat]. replace (concat (map (fun m0 => [m0]) (accepted o))) with (accepted o); [now rewrite <- !app_assoc|].
      generalize (accepted o). induction l as [|x l IH]; cbn [map concat app]; congruence. }
    split; [congruence|]. split; trivial. split; [apply Forall_app; auto|]. split; [discriminate|]. split; [auto|congruence]. }
  pose proof (v_try_core uv' _ _ [] C1) as T. destruct (v_try_all uv' (vset_writing (vset_q s1 m) false)) as [[[s2 c] o2]|] eqn:Et; trivial.
  destruct T as (T1 & T2 & [T3 T3'] & T4 & T5). destruct (v_try_outs _ _ _ _ _ Et) as [O1 O2]. cbn [v_closing v_st vset_writing vset_q v_writing] in T3, T3', T5.
  destruct L1 as (L1 & L2 & L3 & L4). destruct Fl as (Fa & Fb & Fc).
  assert (C2 : v_closing s2 = true -> v_st s2 <> Connected).
  { rewrite T3, T3'. intros X. destruct (L4 X) as [Y|Y]; trivial. specialize (Fa Y). destruct L3 as [L3|[_ L3]]; congruence. }
  assert (ND2 : v_st s2 <> Disconnected) by (rewrite T3'; destruct L3 as [L3|[_ L3]]; congruence).
  assert (Cl2 : v_closing s2 = true <-> In OClose (t ++ o ++ o2)) by (rewrite T3, N2, Cl, !in_app_iff; clear - O1; tauto).
  assert (Cd2 : ~ In OClosed (t ++ o ++ o2)) by (rewrite !in_app_iff; tauto).
  rewrite !app_assoc in *. assert (Fw : uv' = 0%Z -> vflow s2) by (intros U; exact (proj2 (T4 U))).
  destruct (v_st s2) eqn:St2; [| |congruence].
  - rewrite !app_nil_r, ?app_assoc. split; [|split].
    + split; trivial. split; [split; [rewrite St2; trivial|rewrite St2; split; discriminate]|]. split; trivial. rewrite St2. split; [discriminate|contradiction].
    + exact Fw.
    + intros U Gt Gs X. exfalso. apply (C2 X). reflexivity.
  - destruct (v_writing s2) eqn:W2.
    + rewrite !app_nil_r, ?app_assoc. split; [|split].
      * split; trivial. split; [split; [rewrite St2; trivial|rewrite St2; split; [discriminate|congruence]]|]. split; trivial. rewrite St2. split; [discriminate|contradiction].
      * exact Fw.
      * intros U Gt Gs X. rewrite T3, (G1 Gt) in X. destruct (Gs X) as [Y _]. congruence.
    + unfold v_disc_run. destruct (v_closing s2) eqn:Cs2.
      * rewrite !app_nil_r, ?app_assoc. split; [|split].
        -- split; trivial. split; [split; [rewrite St2; discriminate|rewrite St2; split; [discriminate|trivial]]|]. rewrite Cs2. split; trivial. rewrite St2. split; [discriminate|contradiction].
        -- exact Fw.
        -- intros U Gt Gs X. split; [trivial|exact (Fw U W2)].
      * rewrite ?app_assoc. split; [|split].
        -- split; [apply (v_core_quiet s2); trivial; repeat split|]. split; [split; [cbn [v_st vset_closing v_closing]; rewrite St2; discriminate|cbn [v_st vset_closing v_closing]; split; [rewrite St2; discriminate|trivial]]|].
           cbn [v_st vset_closing v_closing]. rewrite !in_app_iff. cbn [In]. split; [clear; split; auto|]. rewrite St2. split; [discriminate|]. rewrite !in_app_iff in Cd2. intros [X|[X|[]]]; [tauto|discriminate].
        -- exact Fw.
        -- intros U Gt Gs X. cbn [v_q vset_closing v_writing]. split; [trivial|exact (Fw U W2)].
Qed.

Lemma v_step_inv s t e : VInv s t -> vallowed s e ->
  match v_step limit hash s e with
  | Crash => False
  | Ok (s', o) => VInv s' (t ++ o) /\ (writes_start e -> vflow s -> vflow s') /\ (writes_start e -> gentle e -> vflow s -> vgentle s -> vgentle s')
  end.
Proof.
  intros I A. destruct e as [p ok1 ok2 uv|uv acts ok uv'|f|]; cbn [v_step vallowed writes_start gentle] in *.
  - pose proof (v_send_inv s t p uv I A) as X. destruct (v_send limit hash s p uv) as [[s' o]|]; [|contradiction]. destruct X as (X1 & X2 & X3). split; [trivial|]. split; [trivial|]. auto.
  - destruct A as [A1 A2]. pose proof (v_done_inv s t uv acts uv' I A1 A2) as X. destruct (v_done limit hash s uv acts uv') as [[s' o]|]; [|contradiction]. destruct X as (X1 & X2 & X3). split; [trivial|]. split; auto.
  - pose proof (v_disc_later s f) as D. unfold v_disc, v_disc_run in *. destruct I as (Co & (Fa & Fb & Fc) & Cl & Cd).
    destruct (v_st s) eqn:St.
    2, 3: rewrite app_nil_r; split; [split; trivial; split; [split; [rewrite St; trivial|split; rewrite St; trivial]|rewrite St; auto]|]; split; auto.
    assert (NC : v_closing s = false) by (destruct (v_closing s) eqn:X; trivial; elim (Fa eq_refl); trivial).
    cbn [v_writing vset_st v_closing] in *. rewrite NC in *. destruct (negb f && v_writing s) eqn:B.
    + rewrite app_nil_r. apply andb_true_iff in B. destruct B as [Bf Bw]. split; [|split].
      * split; [destruct Co as (gs & fly & can & X); exists gs, fly, can; exact X|]. split; [split; [cbn; discriminate|split; cbn; [discriminate|congruence]]|]. cbn [v_closing vset_st v_st]. rewrite NC.
        split; trivial. rewrite <- Cd. split; discriminate.
      * auto.
      * intros _ _ _ Gs. unfold vgentle. cbn [v_closing vset_st]. rewrite NC. discriminate.
    + split; [|split].
      * split; [apply (v_core_quiet s); trivial; repeat split|]. split; [split; [cbn; discriminate|split; cbn; [discriminate|trivial]]|]. cbn [v_closing vset_closing vset_st v_st].
        rewrite !in_app_iff. cbn [In]. split; [tauto|]. split; [discriminate|]. intros [X|[X|[]]]; [apply Cd in X; discriminate|discriminate].
      * auto.
      * intros _ Ef Fw Gs _. subst f. cbn [negb andb] in B. cbn [v_q v_writing vset_closing vset_st]. auto.
  - destruct A as (A1 & A2 & A3). destruct I as (Co & (Fa & Fb & Fc) & Cl & Cd). split; [|split].
    + split; [apply (v_core_quiet s); trivial; repeat split|]. split; [split; [cbn; discriminate|split; cbn; [auto|discriminate]]|]. cbn [v_closing vset_st v_st]. rewrite !in_app_iff. cbn [In].
      split; [rewrite Cl; split; [tauto|intros [X|[X|[]]]; [trivial|discriminate]]|tauto].
    + auto.
    + auto.
Qed.

Lemma v_run_inv es : forall s t, VInv s t -> vlegal limit hash s es ->
  match v_run limit hash s es with
  | Crash => False
  | Ok (s', o) => VInv s' (t ++ o) /\ (Forall writes_start es -> vflow s -> vflow s') /\ (Forall writes_start es -> Forall gentle es -> vflow s -> vgentle s -> vgentle s')
  end.
Proof.
  induction es as [|e es IH]; intros s t I L; cbn [v_run].
  - rewrite app_nil_r. auto.
  - cbn [vlegal] in L. destruct L as [L1 L2]. pose proof (v_step_inv s t e I L1) as S. destruct (v_step limit hash s e) as [[s1 o1]|]; [|contradiction].
    destruct S as (S1 & S2 & S3). specialize (IH s1 (t ++ o1) S1 L2). destruct (v_run limit hash s1 es) as [[s2 o2]|]; [|contradiction].
    destruct IH as (J1 & J2 & J3). rewrite app_assoc. split; trivial. split.
    + intros X Fs. inversion X; subst. auto.
    + intros X Y Fs Gs. inversion X; inversion Y; subst. apply J3; auto.
Qed.

Lemma v_init_inv : VInv (v_init mx mn) [].
Proof.
  split; [|split; [|split]].
  - exists [], [], []. split; [exists []; split; [apply BufStaticProof4.init_inv; trivial|constructor]|]. split; trivial. split; trivial. split; trivial. split; [constructor|]. split; [discriminate|]. split; [trivial|congruence].
  - split; [discriminate|]. split; discriminate.
  - cbn. split; [discriminate|contradiction].
  - cbn. split; [discriminate|contradiction].
Qed.

(** ** Blocks do not move *)
(** While a write is in progress the block at the head stays where it is. *)
Lemma v_push_front_kept m gs p c m' : VQ m gs -> gs <> [] -> short p -> p <> [] -> v_push static_push_back m (block_of hash p) = Ok (c, m') -> s_front m' = s_front m.
Proof.
  intros (l & I & F) Ng S N E. rewrite (block_of_frame hash p) in E. set (d := repeat 0 (N.to_nat uvw) ++ frame p) in *.
  assert (Ld : blen d = uvw + blen (frame p)) by (unfold d; rewrite blen_app; unfold blen at 1; rewrite repeat_length; reflexivity).
  pose proof (frame_len mx hash Hh Hmx' p S) as [F1 F2]. unfold short in S.
  destruct (push_back_block mx mn Hmx0 Hmx Hmn m l d) as (c1 & m1 & P & X); trivial.
  { fold (blen d). rewrite Ld. unfold uvw. assert (2 ^ 31 + 300 < 2 ^ 60) by reflexivity. lia. }
  rewrite P in E. assert (m' = m1) by congruence. subst m1. destruct l as [|[a x] r]; [cbn [map] in F; inversion F; congruence|].
  rewrite (proj2 (front_cons mx mn m a x r I)). destruct X as [(_ & a' & I')|(_ & I' & _)]; exact (proj2 (front_cons mx mn m' a x _ I')).
Qed.
Lemma v_send_kept s gs p uv s1 o : v_writing s = true -> VQ (v_q s) gs -> gs <> [] -> short p -> v_send limit hash s p uv = Ok (s1, o) -> s_front (v_q s1) = s_front (v_q s).
Proof.
  intros W H Ng S E. unfold v_send in E. destruct ((0 <? limit) && (limit <? blen p)); [congruence|]. destruct (v_st s); try congruence. destruct p as [|x p0].
  - unfold v_try_all in E. cbn [v_try] in E. rewrite W in E. congruence.
  - set (p := x :: p0) in *. destruct (v_push static_push_back (v_q s) (block_of hash p)) as [[c m]|] eqn:P; [|discriminate].
    pose proof (v_push_front_kept _ _ _ _ _ H Ng S ltac:(discriminate) P) as K. destruct (c <? 0)%Z; [assert (s1 = vset_q s m) by congruence; subst; exact K|].
    unfold v_try_all in E. cbn [v_try v_writing vset_q] in E. rewrite W in E. assert (s1 = vset_q s m) by congruence. subst. exact K.
Qed.

(** ** An empty area has room *)
Lemma v_push_empty m p : VQ m [] -> short p -> p <> [] -> blen p + 256 <= mx ->
  exists m', v_push static_push_back m (block_of hash p) = Ok (SUCCESS, m') /\ VQ m' [[p]].
Proof.
  intros H S N Room.
  destruct (v_push_group m [] p H S N) as (c & m' & P & [(-> & X)|(-> & X)]); [exists m'; auto|exfalso].
  destruct H as (l & I & F).
  destruct l as [|z l]; [|cbn [map] in F; inversion F].
  rewrite (block_of_frame hash p) in P.
  set (d := repeat 0 (N.to_nat uvw) ++ frame p) in *.
  assert (Ld : blen d = uvw + blen (frame p)) by (unfold d; rewrite blen_app; unfold blen at 1; rewrite repeat_length; reflexivity).
  pose proof (frame_len mx hash Hh Hmx' p S) as [F1 F2].
  unfold short in S.
  assert (B60 : 2 ^ 31 + 300 < 2 ^ 60) by reflexivity.
  destruct (push_back_block mx mn Hmx0 Hmx Hmn m [] d) as (c1 & m1 & P1 & Y); trivial.
  { fold (blen d).
  rewrite Ld.
  unfold uvw.
  lia.
  }
  destruct Y as [(-> & _)|(_ & _ & Y)]; [rewrite P1 in P; discriminate|].
  destruct Y as (r & Er & Ec).
  { cbn [length].
  lia.
  }
  { change (total_unread (map snd (@nil pblk))) with 0.
  rewrite Ld.
  unfold uvw.
  lia.
  }
  unfold static_push_back in Er.
  rewrite (not_full (s_buf m) [] (i_ring _ _ _ _ I)) in Er by (rewrite (i_csz _ _ _ _ I); cbn [length]; lia).
  cbv zeta in Er.
  destruct (empty_init_ok (s_buf m) [] (i_ring _ _ _ _ I)) as (t & R & Es & Ecs).
  assert (T0 : t = 0) by (pose proof (r_lay _ _ _ R) as L; inversion L; auto).
  subst t.
  rewrite full_fl in Er by (rewrite Ld; unfold uvw; assert (2 ^ 60 < 2 ^ 62) by reflexivity; lia).
  rewrite (ring_head _ _ _ R), (r_tail _ _ _ R) in Er.
  cbn [head_at] in Er.
  rewrite (proj2 (N.leb_le 0 0)) in Er by lia.
  assert (Fit : fl (blen d) <= sb_size (empty_init (s_buf m))).
  { rewrite Es, (i_size _ _ _ _ I), Ld, pad_uvw.
  unfold align_size.
  rewrite wrap_lt, padding_pad by (assert (2 ^ 60 + 16 < 2 ^ 63) by reflexivity; assert (2 ^ 60 + 16 < 2 ^ 64) by reflexivity; lia).
    unfold pad.
  pose proof (N.mul_div_le (blen (frame p) + 15) 16 ltac:(discriminate)).
  pose proof (N.div_mod (mx + 16 + 15) 16 ltac:(discriminate)).
  pose proof (N.mod_lt (mx + 16 + 15) 16 ltac:(discriminate)).
  lia.
  }
  rewrite buffer_offset_le, N.sub_0_r in Er by lia.
  rewrite (proj2 (N.leb_le _ _)) in Er by exact Fit.
  unfold create in Er.
  destruct (sb_size (empty_init (s_buf m)) <? full_size (blen d)); [pose proof (f_equal (fun o => match o with Some x => r_code x | None => 0%Z end) Er) as Z; cbv beta iota in Z; cbn [r_code mkres] in Z; rewrite Ec in Z; discriminate|].
  destruct (write_hdr _ _ _ _); [|discriminate].
  unfold publish_tail in Er.
  cbn [sb_circ set_mem sb_tail] in Er.
  destruct (sb_circ _ _); [|discriminate].
  destruct (read_hdr _ _); [|discriminate].
  pose proof (f_equal (fun o => match o with Some x => r_code x | None => 0%Z end) Er) as Z. cbv beta iota in Z. cbn [r_code mkres] in Z.
  rewrite Ec in Z.
  discriminate.
Qed.

End V.
