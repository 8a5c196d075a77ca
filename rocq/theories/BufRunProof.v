(** Histories of calls on the buffer manager. *)
From Verif Require Import Base BufferSpec Buffer BufDynProof BufStaticProof BufStaticProof2 BufStaticProof3 BufStaticProof4.
Local Open Scope N_scope.

Lemma d_init_inv ln ls : inv_d ln ls 0 (d_init ls ln).
Proof. repeat split; cbn; auto; lia. Qed.

Lemma total_op_cons o os : total_op_size (o :: os) = op_size o + 1 + total_op_size os.
Proof. reflexivity. Qed.

Lemma d_run_spec_gen ln ls os : forall W m, inv_d ln ls W m -> W + total_op_size os < 2 ^ 63 ->
  exists m', d_run m (map (pair true) os) = (fst (spec_run ln ls (map abs_d (d_list m)) os), m') /\
            map abs_d (d_list m') = snd (spec_run ln ls (map abs_d (d_list m)) os).
Proof.
  induction os as [|o os IH]; intros W m I Hw.
  - exists m. auto.
  - rewrite total_op_cons in Hw. cbn [map d_run spec_run].
    destruct (d_step_ok ln ls W true m o I ltac:(lia)) as (out & m1 & E & I1 & [Hs|(C & _)]); [|discriminate].
    rewrite E, <- Hs. destruct (IH _ m1 I1 ltac:(lia)) as (m' & E' & H').
    rewrite E'. destruct (spec_run ln ls (map abs_d (d_list m1)) os) as [bs q2]. cbn [fst snd] in *.
    exists m'. auto.
Qed.

Lemma d_run_spec ln ls os : total_op_size os < 2 ^ 63 ->
  exists m, d_run (d_init ls ln) (map (pair true) os) = (fst (spec_run ln ls [] os), m) /\
            map abs_d (d_list m) = snd (spec_run ln ls [] os).
Proof. intros H. apply (d_run_spec_gen ln ls os 0 (d_init ls ln) (d_init_inv ln ls)). lia. Qed.

Lemma d_run_history_gen ln ls os : forall W m, inv_d ln ls W m -> W + total_op_size (map snd os) < 2 ^ 63 ->
  exists outs m', d_run m os = (outs, m') /\ inv_d ln ls (W + total_op_size (map snd os)) m' /\
    history ln ls MALLOC (map abs_d (d_list m)) (map snd os) outs (map abs_d (d_list m')).
Proof.
  induction os as [|[ok o] os IH]; intros W m I Hw.
  - exists [], m. cbn. rewrite N.add_0_r. repeat split; try apply I. constructor.
  - cbn [map snd] in *. rewrite total_op_cons in Hw. cbn [d_run].
    destruct (d_step_ok ln ls W ok m o I ltac:(lia)) as (out & m1 & E & I1 & Hc).
    destruct (IH _ m1 I1 ltac:(lia)) as (outs & m2 & E2 & I2 & H2).
    exists (out :: outs), m2. rewrite E, E2. split; [reflexivity|]. split.
    + rewrite total_op_cons. replace (W + (op_size o + 1 + total_op_size (map snd os))) with (W + op_size o + 1 + total_op_size (map snd os)) by lia. exact I2.
    + destruct Hc as [Hs|(-> & Hp & -> & ->)].
      * eapply history_step; [symmetry; exact Hs|exact H2].
      * apply history_refuse; assumption.
Qed.

Lemma d_run_history ln ls os : total_op_size (map snd os) < 2 ^ 63 ->
  exists outs m, d_run (d_init ls ln) os = (outs, m) /\
    history ln ls MALLOC [] (map snd os) outs (map abs_d (d_list m)).
Proof.
  intros H. destruct (d_run_history_gen ln ls os 0 (d_init ls ln) (d_init_inv ln ls) ltac:(lia)) as (outs & m & E & _ & Hh).
  exists outs, m. auto.
Qed.

Lemma spec_no_malloc ln ls os : forall q, ~ In (Code MALLOC) (fst (spec_run ln ls q os)).
Proof.
  induction os as [|o os IH]; intros q H; [exact H|].
  cbn [spec_run] in H. destruct (spec_step ln ls q o) as [b q1] eqn:E. specialize (IH q1).
  destruct (spec_run ln ls q1 os) as [bs q2]. cbn [fst] in *. destruct H as [->|H]; [|auto].
  destruct o as [d|d|d|d|s fr|s fr| |]; cbn [spec_step] in E;
  repeat match type of E with context[match ?x with _ => _ end] => destruct x end; discriminate.
Qed.

Lemma d_run_no_malloc ln ls os : total_op_size os < 2 ^ 63 ->
  ~ In (Code MALLOC) (fst (d_run (d_init ls ln) (map (pair true) os))).
Proof. intros H. destruct (d_run_spec ln ls os H) as (m & E & _). rewrite E. cbn [fst]. apply spec_no_malloc. Qed.

(** The specification respects its limits. *)
Definition within (ln ls : N) (q : list blk) : Prop :=
  (0 < ln -> N.of_nat (length q) <= ln) /\ (0 < ls -> total_unread q <= ls).

Lemma over_number_false ln q : over_number ln q = false -> 0 < ln -> N.of_nat (length q) < ln.
Proof. unfold over_number. destruct (N.ltb_spec 0 ln); [|lia]. cbn [andb]. rewrite N.leb_gt. auto. Qed.
Lemma over_size_false ls q d : over_size ls q d = false -> 0 < ls -> total_unread q + N.of_nat (length d) <= ls.
Proof. unfold over_size. destruct (N.ltb_spec 0 ls); [|lia]. cbn [andb]. rewrite N.ltb_ge. auto. Qed.

Lemma pop_blk_small s fr b : (length (pop_blk s fr b) <= 1)%nat /\ total_unread (pop_blk s fr b) <= unread b.
Proof.
  unfold pop_blk. destruct (fr && _); [cbn; lia|]. rewrite total_cons. unfold unread. cbn. lia.
Qed.

Lemma unread_grow b d : unread {| raw := raw b ++ d; used := used b |} <= unread b + N.of_nat (length d).
Proof. unfold unread. cbn. rewrite app_length. lia. Qed.

Lemma spec_step_within ln ls q o out q' : spec_step ln ls q o = (out, q') -> within ln ls q -> within ln ls q'.
Proof.
  intros E [W1 W2].
  destruct o as [d|d|d|d|s fr|s fr| |]; cbn [spec_step] in E.
  - destruct (negb (over_number ln q) && negb (over_size ls q d)) eqn:F; injection E as <- <-; [|split; assumption].
    apply andb_prop in F. rewrite !negb_true_iff in F. destruct F as [F1 F2].
    pose proof (over_number_false _ _ F1). pose proof (over_size_false _ _ _ F2).
    split; [rewrite app_length|rewrite total_app, total_cons; unfold unread]; cbn [length raw used total_unread fold_right]; lia.
  - destruct (negb (over_number ln q) && negb (over_size ls q d)) eqn:F; injection E as <- <-; [|split; assumption].
    apply andb_prop in F. rewrite !negb_true_iff in F. destruct F as [F1 F2].
    pose proof (over_number_false _ _ F1). pose proof (over_size_false _ _ _ F2).
    split; [|rewrite total_cons; unfold unread]; cbn [length raw used]; lia.
  - destruct (list_cases_snoc q) as [->|(r & b & ->)].
    + cbn [last_split rev] in E. destruct (negb (over_number ln []) && negb (over_size ls [] d)) eqn:F; injection E as <- <-; [|split; assumption].
      apply andb_prop in F. rewrite !negb_true_iff in F. destruct F as [F1 F2].
      pose proof (over_number_false _ _ F1). pose proof (over_size_false _ _ _ F2).
      split; [|rewrite total_cons; unfold unread]; cbn [length raw used total_unread fold_right] in *; lia.
    + rewrite last_split_snoc in E. destruct (over_size ls (r ++ [b]) d) eqn:F; injection E as <- <-; [split; assumption|].
      pose proof (over_size_false _ _ _ F) as H. pose proof (unread_grow b d). rewrite total_app, total_cons in H.
      split; [rewrite app_length in *|rewrite total_app, total_cons]; cbn [length total_unread fold_right] in *; lia.
  - destruct q as [|b r].
    + destruct (negb (over_number ln []) && negb (over_size ls [] d)) eqn:F; injection E as <- <-; [|split; assumption].
      apply andb_prop in F. rewrite !negb_true_iff in F. destruct F as [F1 F2].
      pose proof (over_number_false _ _ F1). pose proof (over_size_false _ _ _ F2).
      split; [|rewrite total_cons; unfold unread]; cbn [length raw used total_unread fold_right] in *; lia.
    + destruct (over_size ls (b :: r) d) eqn:F; injection E as <- <-; [split; assumption|].
      pose proof (over_size_false _ _ _ F) as H. pose proof (unread_grow b d). rewrite total_cons in H.
      split; [cbn [length] in *; lia|rewrite total_cons; lia].
  - destruct (list_cases_snoc q) as [->|(r & b & ->)].
    + injection E as <- <-. split; assumption.
    + rewrite last_split_snoc in E. injection E as <- <-. destruct (pop_blk_small s fr b).
      rewrite total_app, total_cons in W2. rewrite app_length in W1.
      split; [rewrite app_length|rewrite total_app]; cbn [length total_unread fold_right] in *; lia.
  - destruct q as [|b r]; injection E as <- <-; [split; assumption|]. destruct (pop_blk_small s fr b).
    rewrite total_cons in W2.
    split; [rewrite app_length; cbn [length] in *; lia|rewrite total_app; lia].
  - injection E as <- <-. split; assumption.
  - injection E as <- <-. split; assumption.
Qed.

Lemma history_within ln ls c q os outs q' : history ln ls c q os outs q' -> within ln ls q -> within ln ls q'.
Proof. induction 1; auto. intros W. apply IHhistory. eapply spec_step_within; eauto. Qed.

Lemma within_nil ln ls : within ln ls [].
Proof. split; cbn; lia. Qed.

Lemma d_run_accounting ln ls os outs m : total_op_size (map snd os) < 2 ^ 63 ->
  d_run (d_init ls ln) os = (outs, m) ->
  exists q, history ln ls MALLOC [] (map snd os) outs q /\
    cost_number (d_lim m) = N.of_nat (length q) /\ cost_size (d_lim m) = total_unread q /\
    (0 < ln -> N.of_nat (length q) <= ln) /\ (0 < ls -> total_unread q <= ls).
Proof.
  intros H E. destruct (d_run_history_gen ln ls os 0 (d_init ls ln) (d_init_inv ln ls) ltac:(lia)) as (outs' & m' & E' & I & Hh).
  rewrite E in E'. injection E' as <- <-.
  exists (map abs_d (d_list m)). destruct I as (_ & I1 & I2 & _).
  split; [exact Hh|]. rewrite map_length. split; [exact I1|]. split; [exact I2|].
  pose proof (history_within _ _ _ _ _ _ _ Hh (within_nil ln ls)) as [W1 W2]. rewrite map_length in W1. auto.
Qed.

Lemma s_run_gen ms mn os : 0 < ms < 2 ^ 60 -> (1 <= mn)%nat ->
  forall m l, inv_s ms mn m l -> Forall (fun o => op_size o < 2 ^ 60) os ->
  exists outs m' l', s_run m os = Some (outs, m') /\ inv_s ms mn m' l' /\
    history (N.of_nat mn) ms BUFF_LIMIT (map snd l) os outs (map snd l').
Proof.
  intros Hms Hmn. induction os as [|o os IH]; intros m l I Ho.
  - exists [], m, l. repeat split; try apply I. constructor.
  - inversion_clear Ho as [|? ? H1 H2].
    destruct (s_step_ok ms mn m l o (proj1 Hms) (proj2 Hms) Hmn H1 I) as (out & m1 & k & l1 & E & I1 & Hc).
    destruct (IH m1 l1 I1 H2) as (outs & m2 & l2 & E2 & I2 & Hh).
    exists (out :: outs), m2, l2. cbn [s_run]. rewrite E, E2. split; [reflexivity|]. split; [exact I2|].
    destruct Hc as [Hs|(Hp & -> & El)].
    + eapply history_step; [symmetry; exact Hs|exact Hh].
    + apply history_refuse; [exact Hp|]. now rewrite <- El.
Qed.

Lemma s_run_history ms mn os : 0 < ms < 2 ^ 60 -> (1 <= mn)%nat -> Forall (fun o => op_size o < 2 ^ 60) os ->
  exists outs m l, s_run (s_init ms mn) os = Some (outs, m) /\
    history (N.of_nat mn) ms BUFF_LIMIT [] os outs (map snd l) /\ inv_s ms mn m l.
Proof.
  intros H1 H2 H3. destruct (s_run_gen ms mn os H1 H2 _ _ (init_inv ms mn H2) H3) as (outs & m & l & A & B & C).
  exists outs, m, l. auto.
Qed.

Lemma chain_pair l1 a x l2 b y l3 lo hi : chain lo (l1 ++ (a, x) :: l2 ++ (b, y) :: l3) hi -> a + fl (bsize x) <= b.
Proof.
  intros H. apply chain_app in H. destruct H as (mid & _ & H). cbn [chain] in H. destruct H as [_ H].
  destruct (chain_In _ _ _ b y H) as [H1 _]; [apply in_or_app; right; now left|exact H1].
Qed.

Lemma app_split {A} (u v : list A) : forall p x q, u ++ v = p ++ x :: q ->
  (exists r, u = p ++ x :: r /\ q = r ++ v) \/ (exists r, v = r ++ x :: q /\ p = u ++ r).
Proof.
  induction u as [|z u IH]; intros p x q E; cbn [app] in E.
  - right. exists p. auto.
  - destruct p as [|z' p]; cbn [app] in E; injection E as -> E.
    + left. exists u. auto.
    + destruct (IH _ _ _ E) as [(r & -> & ->)|(r & -> & ->)]; [left|right]; exists r; auto.
Qed.

Lemma layout_pair sz t l1 a x l2 b y l3 : layout sz t (l1 ++ (a, x) :: l2 ++ (b, y) :: l3) ->
  a + fl (bsize x) <= b \/ b + fl (bsize y) <= a.
Proof.
  intros H. remember (l1 ++ (a, x) :: l2 ++ (b, y) :: l3) as L eqn:EL.
  destruct H as [L H1 H2 H3|a0 x0 hi low H1 H2 H3].
  - subst L. left. eapply chain_pair; eauto.
  - rewrite app_comm_cons in EL. destruct (app_split _ _ _ _ _ EL) as [(r & E1 & E2)|(r & E1 & E2)].
    + symmetry in E2. destruct (app_split _ _ _ _ _ E2) as [(r' & -> & ->)|(r' & -> & ->)].
      * left. rewrite E1 in H1. eapply chain_pair; eauto.
      * right. assert (Hin : In (a, x) ((a0, x0) :: hi)) by (rewrite E1; apply in_or_app; right; now left).
        destruct (chain_In _ _ _ _ _ H1 Hin).
        destruct (chain_In _ _ _ b y H2) as [_ H4]; [apply in_or_app; right; now left|]. lia.
    + left. rewrite E1 in H2. eapply chain_pair; eauto.
Qed.

Lemma s_run_disjoint ms mn os outs m : 0 < ms < 2 ^ 60 -> (1 <= mn)%nat -> Forall (fun o => op_size o < 2 ^ 60) os ->
  s_run (s_init ms mn) os = Some (outs, m) ->
  exists l : list (N * blk),
    history (N.of_nat mn) ms BUFF_LIMIT [] os outs (map snd l) /\
    (forall a x, In (a, x) l ->
       read_data (sb_mem (s_buf m)) (a + 32) (length (raw x)) = Some (raw x) /\
       a + 32 + N.of_nat (length (raw x)) <= sb_size (s_buf m)) /\
    (forall l1 a x l2 b y l3, l = l1 ++ (a, x) :: l2 ++ (b, y) :: l3 ->
       ranges_disjoint a (32 + N.of_nat (length (raw x))) b (32 + N.of_nat (length (raw y)))).
Proof.
  intros H1 H2 H3 E. destruct (s_run_history ms mn os H1 H2 H3) as (outs' & m' & l & E' & Hh & I).
  rewrite E in E'. injection E' as <- <-. exists l. split; [exact Hh|].
  destruct (i_ring _ _ _ _ I) as [[t R]|(-> & _)].
  - split.
    + intros a x Hin. pose proof (r_own _ _ _ R) as Ho. rewrite Forall_forall in Ho.
      destruct (Ho _ Hin) as (_ & O2 & _). split; [now apply read_data_ok|].
      pose proof (layout_bound _ _ _ _ _ (r_lay _ _ _ R) Hin) as Hb. pose proof (fl_ge (bsize x)). unfold bsize in *. lia.
    + intros l1 a x l2 b y l3 ->. pose proof (r_lay _ _ _ R) as Hl. apply layout_pair in Hl.
      pose proof (fl_ge (bsize x)). pose proof (fl_ge (bsize y)). unfold ranges_disjoint, bsize in *. lia.
  - split; [intros a x []|]. intros l1 a x l2 b y l3 E0. destruct l1; discriminate.
Qed.

Lemma s_run_accounting ms mn os outs m : 0 < ms < 2 ^ 60 -> (1 <= mn)%nat -> Forall (fun o => op_size o < 2 ^ 60) os ->
  s_run (s_init ms mn) os = Some (outs, m) ->
  exists q, history (N.of_nat mn) ms BUFF_LIMIT [] os outs q /\
    cost_number (s_lim m) = N.of_nat (length q) /\ cost_size (s_lim m) = total_unread q /\
    (length q <= mn)%nat /\ total_unread q <= ms.
Proof.
  intros H1 H2 H3 E. destruct (s_run_history ms mn os H1 H2 H3) as (outs' & m' & l & E' & Hh & I).
  rewrite E in E'. injection E' as <- <-. exists (map snd l). rewrite map_length.
  repeat split; try apply I. exact Hh.
Qed.

(** Packing the area from its start. *)
Lemma s_push_packed ms mn m l t d : 0 < ms < 2 ^ 60 -> (1 <= mn)%nat -> N.of_nat (length d) < 2 ^ 60 ->
  inv_s ms mn m l -> ring (empty_init (s_buf m)) l t -> head_at t l = 0 ->
  t + fl (N.of_nat (length d)) <= sb_size (s_buf m) ->
  (length l < mn)%nat -> total_unread (map snd l) + N.of_nat (length d) <= ms ->
  exists m' k l', s_step m (PushBack d) = Some (Code SUCCESS, m', k) /\ inv_s ms mn m' l' /\
    ring (empty_init (s_buf m')) l' (t + fl (N.of_nat (length d))) /\ head_at (t + fl (N.of_nat (length d))) l' = 0 /\
    length l' = S (length l) /\ total_unread (map snd l') = total_unread (map snd l) + N.of_nat (length d).
Proof.
  intros Hms Hmn Hd I R Hh0 Hfit Hln Htt.
  pose proof (i_ring _ _ _ _ I) as R0.
  assert (Hn : (length l + 1 < sb_csz (s_buf m))%nat) by (rewrite (i_csz _ _ _ _ I); lia).
  destruct (empty_init_ok _ _ R0) as (t0 & R' & Es & Ec).
  assert (t0 = t) by (pose proof (r_tail _ _ _ R); pose proof (r_tail _ _ _ R'); congruence). subst t0. clear R'.
  cbn [s_step]. unfold s_push.
  assert (Hsb : over_size ms (map snd l) d = false).
  { unfold over_size. destruct (N.ltb_spec ms (total_unread (map snd l) + N.of_nat (length d))); [lia|]. now rewrite andb_false_r. }
  assert (Hnb : over_number (N.of_nat mn) (map snd l) = false).
  { unfold over_number. rewrite map_length. destruct (N.leb_spec (N.of_nat mn) (N.of_nat (length l))); [lia|]. now rewrite andb_false_r. }
  rewrite (s_number_blocked _ _ _ _ I), (s_size_blocked _ _ _ _ d I) by lia. rewrite Hnb, Hsb.
  unfold static_push_back. rewrite (not_full _ _ R0 Hn). cbv zeta.
  rewrite (ring_head _ _ _ R), (r_tail _ _ _ R), Hh0. rewrite full_fl by lia.
  destruct (N.leb_spec 0 t) as [_|C]; [|lia].
  rewrite buffer_offset_le by lia.
  destruct (N.leb_spec (fl (N.of_nat (length d))) (sb_size (empty_init (s_buf m)) - t)) as [_|C]; [|lia].
  destruct (create_ok (sb_size (empty_init (s_buf m))) (sb_mem (empty_init (s_buf m))) t (sb_size (empty_init (s_buf m)) - t) (N.of_nat (length d)) ltac:(lia) ltac:(lia) ltac:(lia)) as (m1 & Ecr & Hr & Hs).
  rewrite Ecr.
  set (k := (_ && _ && _)%bool).
  destruct (publish_tail_ok (empty_init (s_buf m)) (set_mem (empty_init (s_buf m)) m1) l t t (fresh d) (t + fl (N.of_nat (length d))) k R
     ltac:(rewrite Ec; exact Hn) eq_refl eq_refl eq_refl eq_refl (r_tail _ _ _ R) ltac:(reflexivity) Hr) as (b2 & Ep & B1 & B2 & B3 & B4).
  rewrite Ep. cbn [r_ptr r_code r_buf r_ok mkres].
  destruct (fill_ok (sb_size (empty_init (s_buf m))) (sb_mem (empty_init (s_buf m))) m1 t d ltac:(lia) Hr Hs) as (m2 & F1 & F2 & F3).
  rewrite B1, B2. cbn [set_mem sb_mem]. rewrite F1.
  pose proof (r_lay _ _ _ R) as Hlay.
  destruct (layout_lin _ _ _ Hlay ltac:(lia)) as (Hch & Ht & Hemp). rewrite Hh0 in Hch.
  assert (R2 : ring (set_mem b2 m2) (l ++ [(t, fresh d)]) (t + fl (N.of_nat (length d)))).
  { apply B4.
    - apply Forall_snoc; [|exact F2].
      apply owns_chain with (m := sb_mem (empty_init (s_buf m))) (p := t) (n := fl (N.of_nat (length d))) (lo := 0) (hi := t); auto; [lia|apply R].
    - constructor; [|lia|destruct l; discriminate].
      apply chain_app. exists t. split; [exact Hch|].
      cbn [chain]. split; [lia|]. unfold bsize, fresh. cbn [raw]. lia. }
  eexists _, _, (l ++ [(t, fresh d)]). split; [reflexivity|].
  assert (Ht2 : total_unread (map snd (l ++ [(t, fresh d)])) = total_unread (map snd l) + N.of_nat (length d)).
  { rewrite map_app, total_app. cbn [map snd]. rewrite total_cons. unfold unread, fresh. cbn. lia. }
  assert (Hl2 : length (l ++ [(t, fresh d)]) = S (length l)) by (rewrite app_length; cbn; lia).
  split.
  { apply (lim_step_ok ms mn m l d (set_mem b2 m2) (l ++ [(t, fresh d)]) true); auto; try lia.
    - cbn [set_mem sb_size]. rewrite B2. exact Es.
    - cbn [set_mem sb_csz]. rewrite B3. exact Ec.
    - left. eauto. }
  cbn [s_buf]. split.
  { assert (Ei : empty_init (set_mem b2 m2) = set_mem b2 m2).
    { unfold empty_init. rewrite (ring_head _ _ _ R2), (r_tail _ _ _ R2). reflexivity. }
    rewrite Ei. exact R2. }
  split; [|auto].
  destruct l as [|[a x] l]; cbn [app head_at] in *; lia.
Qed.

Lemma sum_of_cons f d ds : sum_of f (d :: ds) = f d + sum_of f ds.
Proof. reflexivity. Qed.
Lemma footprint_fl d : footprint d = fl (N.of_nat (length d)).
Proof. unfold footprint, fl, pad. lia. Qed.

Lemma s_pack_run ms mn ds : 0 < ms < 2 ^ 60 -> (1 <= mn)%nat ->
  forall m l t, inv_s ms mn m l -> ring (empty_init (s_buf m)) l t -> head_at t l = 0 ->
  t + sum_of footprint ds <= sb_size (s_buf m) ->
  (length l + length ds <= mn)%nat -> total_unread (map snd l) + sum_of (fun d => N.of_nat (length d)) ds <= ms ->
  exists m', s_run m (map PushBack ds) = Some (map (fun _ => Code SUCCESS) ds, m').
Proof.
  intros Hms Hmn. induction ds as [|d ds IH]; intros m l t I R Hh Hf Hn Ht.
  - exists m. reflexivity.
  - rewrite !sum_of_cons in *. rewrite footprint_fl in Hf. cbn [length] in Hn.
    destruct (s_push_packed ms mn m l t d Hms Hmn ltac:(lia) I R Hh ltac:(lia) ltac:(lia) ltac:(lia)) as (m1 & k & l1 & E & I1 & R1 & Hh1 & Hl1 & Ht1).
    destruct (IH m1 l1 _ I1 R1 Hh1) as (m' & E').
    + rewrite (i_size _ _ _ _ I1), <- (i_size _ _ _ _ I). lia.
    + lia.
    + lia.
    + exists m'. cbn [map s_run]. rewrite E, E'. reflexivity.
Qed.

Lemma s_empty_accepts ms mn os outs m ds : 0 < ms < 2 ^ 60 -> (1 <= mn)%nat -> Forall (fun o => op_size o < 2 ^ 60) os ->
  s_run (s_init ms mn) os = Some (outs, m) ->
  cost_number (s_lim m) = 0 ->
  sum_of footprint ds <= 16 * ((ms + 31) / 16) ->
  (length ds <= mn)%nat -> sum_of (fun d => N.of_nat (length d)) ds <= ms ->
  exists m', s_run m (map PushBack ds) = Some (map (fun _ => Code SUCCESS) ds, m').
Proof.
  intros H1 H2 H3 E Hc Hf Hn Ht.
  destruct (s_run_history ms mn os H1 H2 H3) as (outs' & m' & l & E' & Hh & I).
  rewrite E in E'. injection E' as <- <-.
  assert (l = []) as -> by (pose proof (i_cn _ _ _ _ I) as H; rewrite Hc in H; destruct l; [reflexivity|cbn in H; lia]).
  destruct (empty_init_ok _ _ (i_ring _ _ _ _ I)) as (t & R & Es & Ec).
  pose proof (r_lay _ _ _ R) as Hlay.
  assert (t = 0). { remember (@nil pblk) as L eqn:EL. destruct Hlay as [L A B C|]; [apply C, EL|discriminate]. }
  subst t. apply (s_pack_run ms mn ds H1 H2 m [] 0 I R eq_refl).
  - rewrite (i_size _ _ _ _ I). unfold align_size. rewrite wrap_lt by lia. rewrite padding_pad by lia. unfold pad. lia.
  - cbn. lia.
  - cbn. lia.
Qed.
