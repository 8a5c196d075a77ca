(** Proofs about the ring as the sender uses it: whole blocks are taken from the front, and
    the blocks merged since the last write fit where they came from. *)
From Verif Require Import Base Mem MemSpec IoWrite IoWriteS BufferSpec Buffer BufDynProof BufStaticProof BufStaticProof2 BufStaticProof3 BufStaticProof4.
Local Open Scope N_scope.
Ltac Zify.zify_post_hook ::= idtac.

Section R.
Variables (ms : N) (mn : nat).
Hypothesis Hms0 : 0 < ms.
Hypothesis Hms : ms < 2 ^ 60.
Hypothesis Hmn : (1 <= mn)%nat.

Lemma front_nil m : inv_s ms mn m [] -> static_empty (s_buf m) = true /\ s_front m = Some None.
Proof. intros I. unfold s_front. rewrite (ring0_empty_iff _ _ (i_ring _ _ _ _ I)). auto. Qed.
Lemma front_cons m a x r : inv_s ms mn m ((a, x) :: r) ->
  static_empty (s_buf m) = false /\ s_front m = Some (Some {| k_at := a; k_used := N.of_nat (used x); k_raw := raw x |}).
Proof.
  intros I. unfold s_front. rewrite (ring0_empty_iff _ _ (i_ring _ _ _ _ I)). cbn [match_nil]. split; trivial.
  destruct (ring0_nonempty _ _ (i_ring _ _ _ _ I) ltac:(discriminate)) as [t R]. rewrite (ring_head _ _ _ R). cbn [head_at].
  pose proof (r_own _ _ _ R) as Ho. inversion_clear Ho as [|? ? Hox _]. destruct Hox as (O1 & O2 & O3). rewrite O1. cbn [h_ptr h_size h_used].
  unfold bsize. rewrite Nat2N.id, read_data_ok by exact O2. reflexivity.
Qed.

Lemma pop_whole m a x r t : inv_s ms mn m ((a, x) :: r) -> ring (s_buf m) ((a, x) :: r) t -> used x = 0%nat ->
  exists m' t', v_pop m (blen (raw x)) = Ok m' /\ inv_s ms mn m' r /\ ring (s_buf m') r t' /\ (r <> [] -> t' = t) /\ (r = [] -> t' = 0).
Proof.
  intros I R U. unfold v_pop, static_pop_front. rewrite (ring_empty _ _ _ R). cbn [match_nil]. rewrite (ring_head _ _ _ R). cbn [head_at].
  pose proof (r_own _ _ _ R) as Ho. assert (Hox : owns (sb_mem (s_buf m)) (a, x)) by (now inversion Ho). pose proof Hox as (O1 & O2 & O3). rewrite O1.
  assert (Hbx : bsize x < 2 ^ 63).
  { assert (H : bsize x <= sb_size (s_buf m)) by (apply (ring_bsize _ _ _ a x R); now left).
    rewrite (i_size _ _ _ _ I) in H. pose proof (area_bound ms Hms). lia. }
  cbv zeta. change (h_left {| h_size := bsize x; h_used := N.of_nat (used x); h_ptr := a + 32 |}) with (unread x). rewrite min_if.
  assert (Eu : unread x = blen (raw x)) by (unfold unread; rewrite U; unfold blen; lia). rewrite Eu, N.min_id.
  destruct (pop_one (sb_size (s_buf m)) (sb_mem (s_buf m)) a x (blen (raw x)) [] r t (r_lay _ _ _ R) Ho) as (mm & W & Hleft & Ho' & Hl'); [rewrite Eu; lia|exact Hbx|].
  rewrite W, Hleft, Eu, N.sub_diag. cbn [N.eqb andb app] in *.
  assert (R1 : ring (set_mem (s_buf m) mm) ((a, popped (blen (raw x)) x) :: r) t) by (apply set_mem_ring with ((a, x) :: r); auto).
  pose proof (i_cn _ _ _ _ I) as Hcn. cbn [length] in Hcn.
  eexists _, (match r with [] => 0 | _ => t end). split; [reflexivity|].
  assert (Re : r <> [] -> ring (set_head (set_circ (set_mem (s_buf m) mm) (sb_head (set_mem (s_buf m) mm)) None) ((sb_head (set_mem (s_buf m) mm) + 1) mod sb_csz (set_mem (s_buf m) mm))) r t)
    by (intros Hr; apply (ring_pop_first (set_mem (s_buf m) mm) r a (popped (blen (raw x)) x) t R1 Hr)).
  split.
  - apply (s_pop_inv ms mn m ((a, x) :: r) r _ _ _ true); auto.
    + intros Hr. exists t. exact (Re Hr).
    + destruct r as [|p r].
      * unfold static_empty. cbn [set_head set_circ set_mem sb_head sb_tail sb_csz match_nil].
        pose proof (r_t _ _ _ R) as Ht. cbn [length] in Ht. rewrite Ht. pose proof (r_h _ _ _ R). pose proof (r_c _ _ _ R).
        rewrite <- idx_S by lia. rewrite idx_0 by lia. apply Nat.eqb_refl.
      * apply (ring_empty _ _ _ (Re ltac:(discriminate))).
    + cbn [map snd]. rewrite total_cons. lia.
    + cbn [length]. lia.
    + rewrite drop_one_pos; lia.
  - split; [|split; destruct r; congruence]. cbn [s_buf]. unfold reset_if_empty. destruct r as [|p r].
    + assert (Em : static_empty (set_head (set_circ (set_mem (s_buf m) mm) (sb_head (set_mem (s_buf m) mm)) None) ((sb_head (set_mem (s_buf m) mm) + 1) mod sb_csz (set_mem (s_buf m) mm))) = true).
      { unfold static_empty. cbn [set_head set_circ set_mem sb_head sb_tail sb_csz].
        pose proof (r_t _ _ _ R) as Ht. cbn [length] in Ht. rewrite Ht. pose proof (r_h _ _ _ R). pose proof (r_c _ _ _ R).
        rewrite <- idx_S by lia. rewrite idx_0 by lia. apply Nat.eqb_refl. }
      rewrite Em. apply ring_fresh. exact (r_c _ _ _ R).
    + specialize (Re ltac:(discriminate)). rewrite (ring_empty _ _ _ Re). exact Re.
Qed.

Lemma push_any f (insp : pblk -> list pblk -> list pblk) m l d :
  N.of_nat (length d) < 2 ^ 60 ->
  (forall p q, length (insp p q) = S (length q)) ->
  (forall p q, total_unread (map snd (insp p q)) = unread (snd p) + total_unread (map snd q)) ->
  (forall b, ring0 b l -> (length l + 1 < sb_csz b)%nat ->
     grew b l (fun l' => exists a, l' = insp (a, fresh d) l) d (f b (N.of_nat (length d))) /\ (forall r, f b (N.of_nat (length d)) = Some r -> r_ok r = true)) ->
  inv_s ms mn m l ->
  exists c m', v_push f m d = Ok (c, m') /\
   ((c = SUCCESS /\ exists a, inv_s ms mn m' (insp (a, fresh d) l)) \/
    (c = BUFF_LIMIT /\ inv_s ms mn m' l /\
      ((length l < mn)%nat -> total_unread (map snd l) + blen d <= ms -> exists r, f (s_buf m) (blen d) = Some r /\ r_code r = BUFF_LIMIT))).
Proof.
  intros Hd Hlen Htot Hf I. unfold v_push, s_push.
  rewrite (s_number_blocked _ _ _ _ I), (s_size_blocked _ _ _ _ d I Hms Hd).
  destruct (over_number (N.of_nat mn) (map snd l)) eqn:Eon.
  { exists BUFF_LIMIT, m. split; trivial. right. split; trivial. split; trivial. intros X. exfalso. unfold over_number in Eon. rewrite map_length in Eon.
    apply andb_true_iff in Eon. destruct Eon as [_ Eon]. apply N.leb_le in Eon. lia. }
  destruct (over_size ms (map snd l) d) eqn:Eos.
  { exists BUFF_LIMIT, m. split; trivial. right. split; trivial. split; trivial. intros _ X. exfalso. unfold over_size in Eos.
    apply andb_true_iff in Eos. destruct Eos as [_ Eos]. apply N.ltb_lt in Eos. unfold blen in X. lia. }
  assert (Hn : (length l + 1 < sb_csz (s_buf m))%nat).
  { rewrite (i_csz _ _ _ _ I). unfold over_number in Eon. destruct (N.ltb_spec 0 (N.of_nat mn)); [|lia].
    cbn [andb] in Eon. apply N.leb_gt in Eon. rewrite map_length in Eon. lia. }
  destruct (Hf (s_buf m) (i_ring _ _ _ _ I) Hn) as [(r & Er & Es & Ec & Hr) Hk]. rewrite Er. specialize (Hk r Er). rewrite Hk.
  destruct Hr as [(Hc & Hp & Hr)|(Hc & p & m' & l' & t' & Hp & Hw & (a & El) & Hr)]; rewrite Hc, Hp.
  - eexists _, _. split; [reflexivity|]. right. split; trivial. split; [now apply inv_same_buf|]. intros _ _. exists r. auto.
  - rewrite Es, Hw. subst l'. eexists _, _. split; [reflexivity|]. left. split; trivial. exists a.
    apply (lim_step_ok ms mn m l d (set_mem (r_buf r) m') (insp (a, fresh d) l) true); auto.
    + left. eauto.
    + rewrite Htot. unfold unread, fresh. cbn. lia.
Qed.

Lemma push_back_block m l d : N.of_nat (length d) < 2 ^ 60 -> inv_s ms mn m l ->
  exists c m', v_push static_push_back m d = Ok (c, m') /\
   ((c = SUCCESS /\ exists a, inv_s ms mn m' (l ++ [(a, fresh d)])) \/
    (c = BUFF_LIMIT /\ inv_s ms mn m' l /\
      ((length l < mn)%nat -> total_unread (map snd l) + blen d <= ms -> exists r, static_push_back (s_buf m) (blen d) = Some r /\ r_code r = BUFF_LIMIT))).
Proof.
  intros Hd I. apply (push_any static_push_back (fun x q => q ++ [x])); trivial.
  - intros. rewrite app_length. cbn. lia.
  - intros. rewrite map_app, total_app. cbn. lia.
  - intros b R Hn. apply (static_push_back_ok b l d R Hn). lia.
Qed.

(** Where a block of [s] bytes fits in front. *)
Definition fits_front (sz t h s : N) : Prop := (h <= t -> fl s <= h \/ fl s < sz - t) /\ (t < h -> fl s < h - t).
Lemma push_front_room b l t d : ring b l t -> (length l + 1 < sb_csz b)%nat -> blen d < 2 ^ 62 -> fits_front (sb_size b) t (head_at t l) (blen d) ->
  forall r, static_push_front b (blen d) = Some r -> r_code r <> BUFF_LIMIT.
Proof.
  intros R Hn Hd [F1 F2] r. unfold static_push_front. rewrite (not_full b l (or_introl (ex_intro _ t R)) Hn). cbv zeta.
  assert (Ei : empty_init b = b) by (unfold empty_init; now rewrite (ring_head _ _ _ R), (r_tail _ _ _ R)). rewrite Ei.
  rewrite full_fl by exact Hd. rewrite (ring_head _ _ _ R), (r_tail _ _ _ R). set (h := head_at t l) in *.
  assert (P : forall b k st r, publish_head b st k = Some r -> r_code r <> BUFF_LIMIT).
  { intros b0 k st r0. unfold publish_head. destruct (read_hdr _ _); [|discriminate]. intros E. injection E as <-. discriminate. }
  assert (C : forall a b0 c d0 (g : N -> memory -> bool -> option sres), (forall n mm k r, g n mm k = Some r -> r_code r <> BUFF_LIMIT) ->
    match create a b0 c d0 (blen d) with Some None => Some (mkres MALLOC None b (Nat.leb 2 (sb_csz b))) | Some (Some (n, mm, k)) => g n mm k | None => None end = Some r -> r_code r <> BUFF_LIMIT).
  { intros a0 b0 c0 d0 g G E. destruct (create a0 b0 c0 d0 (blen d)) as [[[[n mm] k]|]|]; [exact (G _ _ _ _ E)|injection E as <-; discriminate|discriminate]. }
  destruct (N.leb_spec h t) as [L|L].
  - rewrite buffer_offset_ge by lia. rewrite N.sub_0_r. destruct (N.leb_spec (fl (blen d)) h) as [L2|L2].
    + apply (C _ _ _ _ (fun n mm k => publish_head (set_mem b mm) _ (_ && k && (h =? n)))). intros n mm k r0. apply P.
    + destruct (layout_lin _ _ _ (r_lay _ _ _ R) L) as (_ & Ht & _). rewrite buffer_offset_le by lia.
      destruct (F1 L) as [X|X]; [lia|]. rewrite (proj2 (N.leb_gt _ _)) by lia.
      apply (C _ _ _ _ (fun n mm k => publish_head (set_mem b mm) _ (_ && k && (n =? sb_size b)))). intros n mm k r0. apply P.
  - rewrite buffer_offset_le by lia. rewrite (proj2 (N.leb_gt _ _)) by (apply F2; lia).
    apply (C _ _ _ _ (fun n mm k => publish_head (set_mem b mm) _ (_ && k && (n =? h)))). intros n mm k r0. apply P.
Qed.

Lemma push_front_block m l t d : inv_s ms mn m l -> ring (s_buf m) l t -> blen d < 2 ^ 60 -> (length l < mn)%nat -> total_unread (map snd l) + blen d <= ms ->
  fits_front (sb_size (s_buf m)) t (head_at t l) (blen d) ->
  exists a m', v_push static_push_front m d = Ok (SUCCESS, m') /\ inv_s ms mn m' ((a, fresh d) :: l).
Proof.
  intros I R Hd Hl Ht F.
  destruct (push_any static_push_front (fun x q => x :: q) m l d) as (c & m' & E & [(-> & a & I')|(-> & _ & X)]); trivial.
  - intros b R0 Hn. apply (static_push_front_ok b l d R0 Hn). unfold blen in Hd. lia.
  - exists a, m'. auto.
  - exfalso. destruct (X Hl Ht) as (r & Er & Ec). refine (push_front_room _ l t d R _ _ F r Er Ec); [rewrite (i_csz _ _ _ _ I); lia|lia].
Qed.

(** ** Blocks taken out of the front leave room for the merged block *)
Definition area (l : list pblk) : N := fold_right (fun p n => fl (bsize (snd p)) + n) 0 l.
Lemma chain_area l : forall lo hi, chain lo l hi -> lo + area l <= hi.
Proof. induction l as [|[a x] l IH]; cbn [chain area fold_right snd]; intros lo hi H; [lia|]. destruct H as [H1 H2]. apply IH in H2. unfold area in H2. lia. Qed.
Lemma chain_head l lo hi : chain lo l hi -> l <> [] -> lo <= head_at 0 l.
Proof. destruct l as [|[a x] l]; [congruence|]. cbn [chain head_at]. tauto. Qed.

(** Addresses do not go down from one block to the next. *)
Fixpoint rising (prev : option N) (l : list pblk) : Prop :=
  match l with
  | [] => True
  | (a, _) :: r => match prev with Some p => p <= a | None => True end /\ rising (Some a) r
  end.
Lemma rising_app p l1 l2 : rising p (l1 ++ l2) -> rising p l1.
Proof. revert p. induction l1 as [|[a x] l1 IH]; intros p H; cbn [app rising] in *; [trivial|]. destruct H. split; eauto. Qed.
Lemma chain_rising_split hi : forall a0 sz t low l1 l2 p, chain a0 hi sz -> chain 0 low t -> t < a0 -> hi ++ low = l1 ++ l2 -> a0 <= p -> rising (Some p) l1 ->
  exists hi2, hi = l1 ++ hi2 /\ l2 = hi2 ++ low.
Proof.
  induction hi as [|[a x] hi IH]; intros a0 sz t low l1 l2 p C L T E P R; cbn [app] in E.
  - destruct l1 as [|[b y] l1]; [exists []; auto|exfalso]. cbn [app] in E. subst low. cbn [chain] in L. destruct L as [_ L]. apply chain_le in L. cbn [rising] in R.
    pose proof (fl_ge (bsize y)). lia.
  - destruct l1 as [|[b y] l1]; [exists ((a, x) :: hi); auto|]. cbn [app] in E. injection E as -> -> E. cbn [chain] in C. destruct C as [C1 C2]. cbn [rising] in R. destruct R as [R1 R2].
    pose proof (fl_ge (bsize y)).
    assert (C3 : chain b hi sz) by (apply (chain_lo _ (b + fl (bsize y))); [exact C2|lia]).
    destruct (IH b sz t low l1 l2 b C3 L ltac:(lia) E ltac:(lia) R2) as (hi2 & -> & ->). exists hi2. auto.
Qed.

Lemma merged_fits sz t l1 l2 s t' : layout sz t (l1 ++ l2) -> l1 <> [] -> rising None l1 -> fl s <= area l1 -> (l2 = [] -> fl s < area l1) -> (l2 <> [] -> t' = t) -> (l2 = [] -> t' = 0) ->
  fits_front sz t' (head_at t' l2) s.
Proof.
  intros Lay N1 Ri S1 S2 T1 T2. inversion Lay as [l H1 H2 H3 E|a x hi low H1 H2 H3 E].
  - destruct (proj1 (chain_app _ _ _ _) H1) as (mid & C1 & C2). apply chain_area in C1. pose proof (chain_le _ _ _ C2) as C3.
    destruct l2 as [|[b y] l2].
    + rewrite (T2 eq_refl). specialize (S2 eq_refl). split; cbn [head_at]; intros X; [right; lia|lia].
    + rewrite (T1 ltac:(discriminate)). cbn [chain head_at] in *. destruct C2 as [C2 _]. split; intros X; [left; lia|]. exfalso. apply chain_app in H1. destruct H1 as (m2 & _ & H1). cbn [chain] in H1. destruct H1 as [_ H1]. apply chain_le in H1. pose proof (fl_ge (bsize y)). lia.
  - destruct l1 as [|[b y] l1]; [congruence|]. cbn [app] in E. injection E as -> -> E. cbn [rising] in Ri. destruct Ri as [_ Ri].
    pose proof H1 as Hc. cbn [chain] in H1. destruct H1 as [_ H1].
    pose proof (fl_ge (bsize y)). assert (C3 : chain b hi sz) by (apply (chain_lo _ (b + fl (bsize y))); [exact H1|lia]).
    destruct (chain_rising_split hi b sz t low l1 l2 b C3 H2 H3 E ltac:(lia) Ri) as (hi2 & -> & ->). clear C3.
    destruct (proj1 (chain_app ((b, y) :: l1) hi2 _ _) Hc) as (mid & C1 & C2). apply chain_area in C1. pose proof (chain_le _ _ _ C2) as C3.
    destruct hi2 as [|[c z] hi2]; cbn [app] in *.
    + destruct low as [|[c z] low].
      * rewrite (T2 eq_refl). specialize (S2 eq_refl). split; cbn [head_at]; intros X; [right; lia|lia].
      * rewrite (T1 ltac:(discriminate)). cbn [chain head_at] in *. destruct H2 as [_ H2]. apply chain_le in H2. pose proof (fl_ge (bsize z)). split; intros X; [right; lia|lia].
    + rewrite (T1 ltac:(discriminate)). cbn [chain head_at] in *. destruct C2 as [C2 _]. split; intros X; lia.
Qed.
End R.
