From Verif Require Import Base BufferSpec Buffer BufDynProof BufStaticProof BufStaticProof2 BufStaticProof3.
Local Open Scope N_scope.

Record inv_s (ms : N) (mn : nat) (m : smgr) (l : list pblk) : Prop := {
  i_ring : ring0 (s_buf m) l;
  i_size : sb_size (s_buf m) = padding_size (wrap64 (ms + align_size));
  i_csz : sb_csz (s_buf m) = (mn + 1)%nat;
  i_cn : cost_number (s_lim m) = N.of_nat (length l);
  i_cs : cost_size (s_lim m) = total_unread (map snd l);
  i_ln : limit_number (s_lim m) = N.of_nat mn;
  i_ls : limit_size (s_lim m) = ms;
  i_tot : total_unread (map snd l) <= ms;
  i_len : (length l <= mn)%nat
}.

Lemma area_bound ms : ms < 2 ^ 60 -> padding_size (wrap64 (ms + align_size)) < 2 ^ 62.
Proof.
  intros H. unfold align_size. rewrite wrap_lt by lia. rewrite padding_pad by lia. unfold pad. lia.
Qed.

Lemma init_inv ms mn : (1 <= mn)%nat -> inv_s ms mn (s_init ms mn) [].
Proof.
  intros H. constructor; try reflexivity; try (cbn; lia).
  right. cbn. repeat split; lia.
Qed.

Lemma ring0_nonempty b l : ring0 b l -> l <> [] -> exists t, ring b l t.
Proof. intros [R|(E & _)] H; [exact R|contradiction]. Qed.

Lemma ring_bsize b l t a x : ring b l t -> In (a, x) l -> bsize x <= sb_size b.
Proof. intros R H. pose proof (layout_bound _ _ _ _ _ (r_lay _ _ _ R) H). pose proof (fl_ge (bsize x)). lia. Qed.

(** Result of a step. *)
Definition step_post (ms : N) (mn : nat) (l : list pblk) (o : bop) (r : option (bout * smgr * bool)) : Prop :=
  exists out m' k l', r = Some (out, m', k) /\ inv_s ms mn m' l' /\
    ((out, map snd l') = spec_step (N.of_nat mn) ms (map snd l) o \/
     (is_push o = true /\ out = Code BUFF_LIMIT /\ map snd l' = map snd l)).

Lemma s_number_blocked ms mn m l : inv_s ms mn m l -> number_blocked (s_lim m) = over_number (N.of_nat mn) (map snd l).
Proof. intros I. unfold number_blocked, over_number. now rewrite (i_cn _ _ _ _ I), (i_ln _ _ _ _ I), map_length. Qed.
Lemma s_size_blocked ms mn m l d : inv_s ms mn m l -> ms < 2 ^ 60 -> N.of_nat (length d) < 2 ^ 60 ->
  size_blocked (s_lim m) (N.of_nat (length d)) = over_size ms (map snd l) d.
Proof.
  intros I H1 H2. unfold size_blocked, over_size. rewrite (i_cs _ _ _ _ I), (i_ls _ _ _ _ I).
  pose proof (i_tot _ _ _ _ I). now rewrite wrap_lt by lia.
Qed.

Lemma lim_step_ok ms mn m l d b' l' (g : bool) :
  inv_s ms mn m l -> ms < 2 ^ 60 -> (0 < ms) -> N.of_nat (length d) < 2 ^ 60 ->
  over_size ms (map snd l) d = false ->
  (if g then over_number (N.of_nat mn) (map snd l) = false /\ (0 < mn)%nat else True) ->
  sb_size b' = sb_size (s_buf m) -> sb_csz b' = sb_csz (s_buf m) -> ring0 b' l' ->
  length l' = (if g then S (length l) else length l) ->
  total_unread (map snd l') = total_unread (map snd l) + N.of_nat (length d) ->
  inv_s ms mn {| s_buf := b'; s_lim := (if g then charge else charge_size) (s_lim m) (N.of_nat (length d)) |} l'.
Proof.
  intros I Hms Hms0 Hd Hos Hon Es Ec R Hl Ht.
  pose proof (i_tot _ _ _ _ I) as Hto. pose proof (i_len _ _ _ _ I) as Hle.
  assert (Hfit : total_unread (map snd l) + N.of_nat (length d) <= ms).
  { unfold over_size in Hos. destruct (N.ltb_spec 0 ms); [|lia]. cbn [andb] in Hos. apply N.ltb_ge in Hos. exact Hos. }
  constructor; cbn [s_buf s_lim].
  - exact R.
  - rewrite Es. apply I.
  - rewrite Ec. apply I.
  - destruct g; cbn [charge charge_size cost_number]; rewrite (i_cn _ _ _ _ I), Hl; [|reflexivity].
    assert (N.of_nat (length l) < 2 ^ 64 - 1); [|rewrite wrap_lt; lia].
    destruct (N.lt_ge_cases (N.of_nat (length l)) (2 ^ 64 - 1)); [assumption|exfalso].
    clear - H I Hms Hms0. 
    (* the blocks lie in an area of less than 2^62 bytes, 16 bytes each at least *)
    destruct (i_ring _ _ _ _ I) as [[t R]|(-> & _)]; [|cbn in H; lia].
    assert (Hc : forall q lo hi, chain lo q hi -> lo + N.of_nat (length q) <= hi).
    { induction q as [|[a x] q IH]; intros lo hi Hc; cbn [chain length] in *; [lia|].
      destruct Hc as [C1 C2]. apply IH in C2. pose proof (fl_ge (bsize x)). lia. }
    pose proof (area_bound ms Hms) as Ha. rewrite <- (i_size _ _ _ _ I) in Ha.
    destruct (r_lay _ _ _ R) as [l H1 H2 H3|a0 x0 hi low H1 H2 H3].
    + apply Hc in H1. lia.
    + apply Hc in H1. apply Hc in H2. cbn [length] in *. rewrite app_length in H. pose proof H3. lia.
  - destruct g; cbn [charge charge_size cost_size]; rewrite (i_cs _ _ _ _ I), Ht, wrap_lt; lia.
  - destruct g; apply I.
  - destruct g; apply I.
  - lia.
  - destruct g; [|lia]. destruct Hon as [Hon Hmn]. unfold over_number in Hon.
    destruct (N.ltb_spec 0 (N.of_nat mn)); [|lia]. cbn [andb] in Hon. apply N.leb_gt in Hon. rewrite map_length in Hon. lia.
Qed.

Lemma inv_same_buf ms mn m l b' : inv_s ms mn m l -> sb_size b' = sb_size (s_buf m) -> sb_csz b' = sb_csz (s_buf m) ->
  ring0 b' l -> inv_s ms mn {| s_buf := b'; s_lim := s_lim m |} l.
Proof. intros I Es Ec R. constructor; cbn [s_buf s_lim]; try apply I; auto; [rewrite Es|rewrite Ec]; apply I. Qed.

Lemma s_push_post f (ins : blk -> list blk -> list blk) (insp : pblk -> list pblk -> list pblk) ms mn m l d o :
  (0 < ms) -> ms < 2 ^ 60 -> (1 <= mn)%nat -> N.of_nat (length d) < 2 ^ 60 ->
  is_push o = true ->
  (forall p q, map snd (insp p q) = ins (snd p) (map snd q)) ->
  (forall p q, length (insp p q) = S (length q)) ->
  (forall p q, total_unread (map snd (insp p q)) = unread (snd p) + total_unread (map snd q)) ->
  spec_step (N.of_nat mn) ms (map snd l) o =
    (if negb (over_number (N.of_nat mn) (map snd l)) && negb (over_size ms (map snd l) d)
     then (Code SUCCESS, ins (fresh d) (map snd l)) else (Code BUFF_LIMIT, map snd l)) ->
  (forall b, ring0 b l -> (length l + 1 < sb_csz b)%nat ->
     grew b l (fun l' => exists a, l' = insp (a, fresh d) l) d (f b (N.of_nat (length d)))) ->
  inv_s ms mn m l ->
  step_post ms mn l o (let* (c, m', k) := s_push f m d in Some (Code c, m', k)).
Proof.
  intros Hms0 Hms Hmn Hd Hpo Hins Hlen Htot Hspec Hf I. unfold s_push.
  rewrite (s_number_blocked _ _ _ _ I), (s_size_blocked _ _ _ _ d I Hms Hd).
  destruct (over_number (N.of_nat mn) (map snd l)) eqn:Eon.
  { exists (Code BUFF_LIMIT), m, true, l. repeat split; auto; try apply I. }
  destruct (over_size ms (map snd l) d) eqn:Eos.
  { exists (Code BUFF_LIMIT), m, true, l. repeat split; auto; try apply I. }
  assert (Hn : (length l + 1 < sb_csz (s_buf m))%nat).
  { rewrite (i_csz _ _ _ _ I). unfold over_number in Eon. destruct (N.ltb_spec 0 (N.of_nat mn)); [|lia].
    cbn [andb] in Eon. apply N.leb_gt in Eon. rewrite map_length in Eon. lia. }
  destruct (Hf (s_buf m) (i_ring _ _ _ _ I) Hn) as (r & Er & Es & Ec & Hr). rewrite Er.
  destruct Hr as [(Hc & Hp & Hr)|(Hc & p & m' & l' & t' & Hp & Hw & (a & El) & Hr)]; rewrite Hc, Hp.
  - eexists _, _, _, l. split; [reflexivity|]. split; [|right; auto].
    now apply inv_same_buf.
  - rewrite Es, Hw. subst l'. eexists _, _, _, (insp (a, fresh d) l). split; [reflexivity|]. split.
    + apply (lim_step_ok ms mn m l d (set_mem (r_buf r) m') (insp (a, fresh d) l) true); auto.
      * left. eauto.
      * rewrite Htot. unfold unread, fresh. cbn. lia.
    + left. rewrite Hspec, Hins. reflexivity.
Qed.

Lemma s_merge_post g l1 a x l2 ms mn m l d o (k0 : list blk) :
  (0 < ms) -> ms < 2 ^ 60 -> N.of_nat (length d) < 2 ^ 60 ->
  is_push o = true -> l = l1 ++ (a, x) :: l2 ->
  spec_step (N.of_nat mn) ms (map snd l) o =
    (if over_size ms (map snd l) d then (Code BUFF_LIMIT, map snd l)
     else (Code SUCCESS, map snd l1 ++ grow x d :: map snd l2)) ->
  (forall b t, ring b l t -> d <> [] -> bsize x + N.of_nat (length d) < 2 ^ 62 ->
     grew b l (fun l' => exists a', l' = l1 ++ (a', grow x d) :: l2) d (g b (N.of_nat (length d)))) ->
  (forall b, d = [] -> g b (N.of_nat (length d)) = Some (mkres SUCCESS None b true)) ->
  inv_s ms mn m l ->
  step_post ms mn l o (let* (c, m', k) := (if static_empty (s_buf m) then s_push g m d else
    let s := N.of_nat (length d) in
    if size_blocked (s_lim m) s then Some (BUFF_LIMIT, m, true) else
    let* r := g (s_buf m) s in
    let lim := if (0 <=? r_code r)%Z then charge_size (s_lim m) s else s_lim m in
    match r_ptr r with
    | None => Some (r_code r, {| s_buf := r_buf r; s_lim := lim |}, r_ok r)
    | Some p => let* mm := write_data (sb_size (r_buf r)) (sb_mem (r_buf r)) p d in
                Some (r_code r, {| s_buf := set_mem (r_buf r) mm; s_lim := lim |}, r_ok r)
    end) in Some (Code c, m', k)).
Proof.
  intros Hms0 Hms Hd Hpo El Hspec Hg Hg0 I.
  rewrite (ring0_empty_iff _ _ (i_ring _ _ _ _ I)).
  assert (Hne : l <> []) by (subst l; destruct l1; discriminate).
  replace (match_nil l) with false by (destruct l; [contradiction|reflexivity]).
  cbv zeta. rewrite (s_size_blocked _ _ _ _ d I Hms Hd).
  destruct (over_size ms (map snd l) d) eqn:Eos.
  { exists (Code BUFF_LIMIT), m, true, l. repeat split; auto; try apply I. }
  assert (Hcase : d = [] \/ d <> []) by (destruct d; [left; reflexivity|right; discriminate]).
  destruct Hcase as [Ed|Ed].
  - rewrite (Hg0 _ Ed). cbn [r_code r_ptr r_buf r_ok mkres].
    eexists _, _, _, l. split; [reflexivity|]. split.
    + apply (lim_step_ok ms mn m l d (s_buf m) l false); auto; try apply I.
      subst d. cbn. lia.
    + left. rewrite Hspec, El, map_app. cbn [map]. do 3 f_equal. subst d. unfold grow. cbn [snd]. destruct x. cbn. now rewrite app_nil_r.
  - destruct (ring0_nonempty _ _ (i_ring _ _ _ _ I) Hne) as [t R].
    assert (Hbx : bsize x + N.of_nat (length d) < 2 ^ 62).
    { assert (bsize x <= sb_size (s_buf m)).
      { apply (ring_bsize _ _ _ a x R). subst l. apply in_or_app. right. now left. }
      rewrite (i_size _ _ _ _ I) in H. unfold align_size in H. rewrite wrap_lt in H by lia. rewrite padding_pad in H by lia. unfold pad in H. lia. }
    destruct (Hg (s_buf m) t R Ed Hbx) as (r & Er & Es & Ec & Hr). rewrite Er.
    destruct Hr as [(Hc & Hp & Hr)|(Hc & p & m' & l' & t' & Hp & Hw & (a' & El') & Hr)]; rewrite Hc, Hp.
    + eexists _, _, _, l. split; [reflexivity|]. split; [|right; auto]. now apply inv_same_buf.
    + rewrite Es, Hw. eexists _, _, _, l'. split; [reflexivity|]. split.
      * apply (lim_step_ok ms mn m l d (set_mem (r_buf r) m') l' false); auto.
        -- left. eauto.
        -- subst l l'. rewrite !app_length. reflexivity.
        -- subst l l'. rewrite !map_app, !total_app. cbn [map]. rewrite !total_cons. cbn [snd].
           assert (used x <= length (raw x))%nat.
           { pose proof (r_own _ _ _ R) as Ho. rewrite Forall_app in Ho. destruct Ho as [_ Ho]. inversion_clear Ho as [|? ? Hox _]. destruct Hox as (_ & _ & H). exact H. }
           unfold unread, grow. cbn [raw used]. rewrite app_length. lia.
      * left. rewrite Hspec. subst l'. rewrite map_app. reflexivity.
Qed.

(** Popping the last / first block. *)
Lemma ring_pop_last b l a x t : ring b (l ++ [(a, x)]) t -> l <> [] ->
  ring (set_tail (set_circ b (sb_tail b) None) (tail_index b)) l a.
Proof.
  intros R Hne. destruct (ring_last _ _ _ _ _ R) as [E1 E2].
  pose proof (r_n _ _ _ R) as Hn. rewrite app_length in Hn. cbn [length] in Hn.
  pose proof (r_h _ _ _ R) as Hh. pose proof (r_t _ _ _ R) as Ht. rewrite app_length in Ht. cbn [length] in Ht.
  constructor; cbn [set_tail set_circ sb_csz sb_head sb_tail sb_circ sb_mem sb_size]; try apply R; auto; try lia.
  - intros i c y Hi. assert (i < length l)%nat by (apply nth_error_Some; congruence).
    rewrite upd_other.
    + apply (r_circ _ _ _ R i c y). rewrite nth_error_app1 by lia. exact Hi.
    + rewrite Ht. intros E. apply idx_inj in E; lia.
  - rewrite upd_other; [exact E2|]. rewrite E1, Ht. intros E. apply idx_inj in E; lia.
  - apply layout_drop_last with t x; [apply R|exact Hne].
  - pose proof (r_own _ _ _ R) as Ho. rewrite Forall_app in Ho. apply Ho.
  - contradiction.
Qed.

Lemma ring_pop_first b l a x t : ring b ((a, x) :: l) t -> l <> [] ->
  ring (set_head (set_circ b (sb_head b) None) ((sb_head b + 1) mod sb_csz b)) l t.
Proof.
  intros R Hne. pose proof (r_n _ _ _ R) as Hn. cbn [length] in Hn.
  pose proof (r_h _ _ _ R) as Hh. pose proof (r_t _ _ _ R) as Ht. cbn [length] in Ht.
  constructor; cbn [set_head set_circ sb_csz sb_head sb_tail sb_circ sb_mem sb_size]; try apply R; auto; try lia.
  - rewrite idx_shift by lia. exact Ht.
  - intros i c y Hi. assert (i < length l)%nat by (apply nth_error_Some; congruence).
    rewrite idx_shift by lia. rewrite upd_other.
    + apply (r_circ _ _ _ R (S i) c y Hi).
    + intros E. rewrite <- (idx_0 (sb_csz b) (sb_head b)) in E at 2 by exact Hh. apply idx_inj in E; lia.
  - rewrite upd_other; [apply R|]. rewrite Ht. intros E.
    rewrite <- (idx_0 (sb_csz b) (sb_head b)) in E at 2 by exact Hh. apply idx_inj in E; lia.
  - apply layout_drop_first with a x; [apply R|exact Hne].
  - pose proof (r_own _ _ _ R) as Ho. now inversion Ho.
  - contradiction.
Qed.

Lemma ring_fresh b : (2 <= sb_csz b)%nat -> ring (set_circ (set_tail (set_head b 0) 0) 0 (Some 0)) [] 0.
Proof.
  intros H. constructor; cbn [set_tail set_head set_circ sb_csz sb_head sb_tail sb_circ sb_mem sb_size length]; try lia; auto.
  - now rewrite idx_0 by lia.
  - intros [|i] a x Hi; discriminate.
  - constructor; cbn; try lia; auto.
Qed.

Lemma unread_popped s x : s <= unread x -> unread (popped s x) = unread x - s.
Proof. unfold unread, popped. cbn. lia. Qed.

Lemma pop_blk_eq s fr x : pop_blk s fr x =
  (if fr && (unread x - N.min s (unread x) =? 0) then [] else [popped (N.min s (unread x)) x]).
Proof.
  unfold pop_blk. fold (popped (N.min s (unread x)) x). rewrite unread_popped by lia. reflexivity.
Qed.

Lemma s_pop_inv ms mn m l l' b1 s lim1 (e : bool) :
  inv_s ms mn m l -> (1 <= mn)%nat ->
  (l' <> [] -> exists t, ring b1 l' t) -> sb_size b1 = sb_size (s_buf m) -> sb_csz b1 = sb_csz (s_buf m) ->
  static_empty b1 = match_nil l' ->
  total_unread (map snd l) = total_unread (map snd l') + s -> (length l' <= length l)%nat ->
  lim1 = s_lim m \/ lim1 = drop_one (s_lim m) -> cost_number lim1 = N.of_nat (length l') ->
  inv_s ms mn {| s_buf := reset_if_empty b1; s_lim := fix_limit (static_empty b1) lim1 s |} l'.
Proof.
  intros I Hmn R Es Ec Ee Ht Hl Hlim Hcn.
  destruct (fix_limit_ok (s_lim m) lim1 (map snd l') (static_empty b1) s (N.of_nat mn) ms) as (A & B & C & D);
    try apply I; auto.
  { rewrite map_length. exact Hcn. }
  { rewrite (i_cs _ _ _ _ I). exact Ht. }
  { rewrite Ee. apply match_nil_iff. }
  pose proof (i_tot _ _ _ _ I). pose proof (i_len _ _ _ _ I).
  constructor; cbn [s_buf s_lim]; try lia; auto.
  - unfold reset_if_empty. rewrite Ee. destruct l' as [|p l'].
    + cbn [match_nil]. left. exists 0. apply ring_fresh. rewrite Ec, (i_csz _ _ _ _ I). lia.
    + cbn [match_nil]. left. apply R. discriminate.
  - unfold reset_if_empty. destruct (static_empty b1); cbn [set_circ set_tail set_head sb_size]; rewrite Es; apply I.
  - unfold reset_if_empty. destruct (static_empty b1); cbn [set_circ set_tail set_head sb_csz]; rewrite Ec; apply I.
  - rewrite map_length in A. exact A.
Qed.

Lemma static_empty_set_mem b m : static_empty (set_mem b m) = static_empty b.
Proof. reflexivity. Qed.
Lemma tail_index_set_mem b m : tail_index (set_mem b m) = tail_index b.
Proof. reflexivity. Qed.
Lemma ring_empty b l t : ring b l t -> static_empty b = match_nil l.
Proof. intros R. apply ring0_empty_iff. left. eauto. Qed.

Lemma min_if s u : (if u <? s then u else s) = N.min s u.
Proof. destruct (N.ltb_spec u s); lia. Qed.

Lemma s_pop_back_post ms mn m l s fr : (1 <= mn)%nat -> ms < 2 ^ 60 -> inv_s ms mn m l ->
  step_post ms mn l (PopBack s fr) (s_step m (PopBack s fr)).
Proof.
  intros Hmn Hms I. cbn [s_step]. unfold static_pop_back.
  rewrite (ring0_empty_iff _ _ (i_ring _ _ _ _ I)).
  destruct (list_cases_snoc l) as [->|(r & [a x] & ->)].
  { cbn [match_nil]. eexists _, _, _, []. split; [reflexivity|]. split; [exact I|]. left. reflexivity. }
  assert (Hne : r ++ [(a, x)] <> []) by (destruct r; discriminate).
  replace (match_nil (r ++ [(a, x)])) with false by (destruct r; reflexivity).
  destruct (ring0_nonempty _ _ (i_ring _ _ _ _ I) Hne) as [t R].
  destruct (ring_last _ _ _ _ _ R) as [E1 E2]. rewrite E2.
  pose proof (r_own _ _ _ R) as Ho.
  assert (Hox : owns (sb_mem (s_buf m)) (a, x)) by (rewrite Forall_forall in Ho; apply Ho, in_or_app; right; now left).
  pose proof Hox as (O1 & O2 & O3). rewrite O1.
  assert (Hbx : bsize x < 2 ^ 63).
  { assert (H : bsize x <= sb_size (s_buf m)) by (apply (ring_bsize _ _ _ a x R); apply in_or_app; right; now left).
    rewrite (i_size _ _ _ _ I) in H. pose proof (area_bound ms Hms). lia. }
  cbv zeta. change (h_left {| h_size := bsize x; h_used := N.of_nat (used x); h_ptr := a + 32 |}) with (unread x). rewrite min_if.
  set (s' := N.min s (unread x)).
  destruct (pop_one (sb_size (s_buf m)) (sb_mem (s_buf m)) a x s' r [] t (r_lay _ _ _ R) Ho) as (mm & W & Hleft & Ho' & Hl'); [unfold s'; lia|exact Hbx|].
  rewrite W. rewrite Hleft.
  assert (R1 : ring (set_mem (s_buf m) mm) (r ++ [(a, popped s' x)]) t).
  { apply set_mem_ring with (r ++ [(a, x)]); auto. rewrite !map_app. reflexivity. }
  rewrite <- (tail_index_set_mem (s_buf m) mm).
  assert (Hspec : spec_step (N.of_nat mn) ms (map snd (r ++ [(a, x)])) (PopBack s fr) =
          (Code SUCCESS, map snd r ++ pop_blk s fr x)).
  { rewrite map_app. cbn [map snd spec_step]. now rewrite last_split_snoc. }
  rewrite pop_blk_eq in Hspec. fold s' in Hspec.
  pose proof (i_cn _ _ _ _ I) as Hcn. rewrite app_length in Hcn. cbn [length] in Hcn.
  destruct (fr && (unread x - s' =? 0)) eqn:Edead.
  - eexists _, _, _, r. split; [reflexivity|]. split; [|left; rewrite Hspec, app_nil_r; reflexivity].
    apply (s_pop_inv ms mn m (r ++ [(a, x)])); auto.
    + intros Hr. exists a. apply (ring_pop_last (set_mem (s_buf m) mm) r a (popped s' x) t R1 Hr).
    + destruct (ring_last _ _ _ _ _ R1) as [E3 _].
      destruct r as [|p r].
      * unfold static_empty. cbn [set_tail set_circ set_mem sb_head sb_tail match_nil].
        rewrite E3. cbn [length set_mem sb_csz sb_head]. rewrite idx_0; [apply Nat.eqb_refl|apply R].
      * apply (ring_empty _ _ _ (ring_pop_last (set_mem (s_buf m) mm) (p :: r) a (popped s' x) t R1 ltac:(discriminate))).
    + rewrite map_app, total_app. cbn [map snd]. rewrite total_cons. cbn [total_unread fold_right].
      apply andb_prop in Edead. destruct Edead as [_ Edead]. apply N.eqb_eq in Edead. unfold s' in *. lia.
    + rewrite app_length. lia.
    + rewrite drop_one_pos; lia.
  - eexists _, _, _, (r ++ [(a, popped s' x)]). split; [reflexivity|].
    split; [|left; rewrite Hspec, map_app; reflexivity].
    apply (s_pop_inv ms mn m (r ++ [(a, x)])); auto.
    + intros _. exists t. exact R1.
    + exact (ring_empty _ _ _ R1).
    + rewrite !map_app, !total_app. cbn [map snd]. rewrite !total_cons. cbn [total_unread fold_right].
      rewrite unread_popped by (unfold s'; lia). unfold s'. lia.
    + rewrite !app_length. cbn. lia.
    + rewrite app_length. cbn [length]. exact Hcn.
Qed.

Lemma s_pop_front_post ms mn m l s fr : (1 <= mn)%nat -> ms < 2 ^ 60 -> inv_s ms mn m l ->
  step_post ms mn l (PopFront s fr) (s_step m (PopFront s fr)).
Proof.
  intros Hmn Hms I. cbn [s_step]. unfold static_pop_front.
  rewrite (ring0_empty_iff _ _ (i_ring _ _ _ _ I)).
  destruct l as [|[a x] r].
  { cbn [match_nil]. eexists _, _, _, []. split; [reflexivity|]. split; [exact I|]. left. reflexivity. }
  cbn [match_nil].
  destruct (ring0_nonempty _ _ (i_ring _ _ _ _ I) ltac:(discriminate)) as [t R].
  rewrite (ring_head _ _ _ R). cbn [head_at].
  pose proof (r_own _ _ _ R) as Ho.
  assert (Hox : owns (sb_mem (s_buf m)) (a, x)) by (now inversion Ho).
  pose proof Hox as (O1 & O2 & O3). rewrite O1.
  assert (Hbx : bsize x < 2 ^ 63).
  { assert (H : bsize x <= sb_size (s_buf m)) by (apply (ring_bsize _ _ _ a x R); now left).
    rewrite (i_size _ _ _ _ I) in H. pose proof (area_bound ms Hms). lia. }
  cbv zeta. change (h_left {| h_size := bsize x; h_used := N.of_nat (used x); h_ptr := a + 32 |}) with (unread x). rewrite min_if.
  set (s' := N.min s (unread x)).
  destruct (pop_one (sb_size (s_buf m)) (sb_mem (s_buf m)) a x s' [] r t (r_lay _ _ _ R) Ho) as (mm & W & Hleft & Ho' & Hl'); [unfold s'; lia|exact Hbx|].
  rewrite W. rewrite Hleft. cbn [app] in Ho', Hl'.
  assert (R1 : ring (set_mem (s_buf m) mm) ((a, popped s' x) :: r) t).
  { apply set_mem_ring with ((a, x) :: r); auto. }
  assert (Hspec : spec_step (N.of_nat mn) ms (map snd ((a, x) :: r)) (PopFront s fr) =
          (Code SUCCESS, pop_blk s fr x ++ map snd r)) by reflexivity.
  rewrite pop_blk_eq in Hspec. fold s' in Hspec.
  pose proof (i_cn _ _ _ _ I) as Hcn. cbn [length] in Hcn.
  destruct (fr && (unread x - s' =? 0)) eqn:Edead.
  - eexists _, _, _, r. split; [reflexivity|]. split; [|left; rewrite Hspec; reflexivity].
    apply (s_pop_inv ms mn m ((a, x) :: r)); auto.
    + intros Hr. exists t. apply (ring_pop_first (set_mem (s_buf m) mm) r a (popped s' x) t R1 Hr).
    + destruct r as [|p r].
      * unfold static_empty. cbn [set_head set_circ set_mem sb_head sb_tail sb_csz match_nil].
        pose proof (r_t _ _ _ R) as Ht. cbn [length] in Ht. rewrite Ht.
        pose proof (r_h _ _ _ R). pose proof (r_c _ _ _ R).
        rewrite <- idx_S by lia. rewrite idx_0 by lia. apply Nat.eqb_refl.
      * apply (ring_empty _ _ _ (ring_pop_first (set_mem (s_buf m) mm) (p :: r) a (popped s' x) t R1 ltac:(discriminate))).
    + cbn [map snd]. rewrite total_cons.
      apply andb_prop in Edead. destruct Edead as [_ Edead]. apply N.eqb_eq in Edead. unfold s' in *. lia.
    + cbn [length]. lia.
    + rewrite drop_one_pos; lia.
  - eexists _, _, _, ((a, popped s' x) :: r). split; [reflexivity|].
    split; [|left; rewrite Hspec; reflexivity].
    apply (s_pop_inv ms mn m ((a, x) :: r)); auto.
    + intros _. exists t. exact R1.
    + exact (ring_empty _ _ _ R1).
    + cbn [map snd]. rewrite !total_cons. rewrite unread_popped by (unfold s'; lia). unfold s'. lia.
Qed.

Lemma view_ok b l1 a x l2 t i : ring b (l1 ++ (a, x) :: l2) t -> sb_circ b i = Some a ->
  forall lim, s_view {| s_buf := b; s_lim := lim |} i = Some (Some (used x, visible x)).
Proof.
  intros R Hi lim. unfold s_view. cbn [s_buf]. rewrite (ring_empty _ _ _ R).
  replace (match_nil (l1 ++ (a, x) :: l2)) with false by (destruct l1; reflexivity).
  rewrite Hi. pose proof (r_own _ _ _ R) as Ho. rewrite Forall_app in Ho. destruct Ho as [_ Ho].
  inversion_clear Ho as [|? ? Hox _]. destruct Hox as (O1 & O2 & O3). rewrite O1. unfold h_left. cbn [h_ptr h_used h_size].
  assert (El : N.to_nat (bsize x - N.of_nat (used x)) = length (visible x)).
  { unfold visible, bsize. rewrite skipn_length. lia. }
  rewrite El. rewrite read_data_ok; [|unfold visible; now apply holds_skip].
  do 3 f_equal. unfold bsize. lia.
Qed.

Lemma s_step_ok ms mn m l o : (0 < ms) -> ms < 2 ^ 60 -> (1 <= mn)%nat -> op_size o < 2 ^ 60 ->
  inv_s ms mn m l -> step_post ms mn l o (s_step m o).
Proof.
  intros Hms0 Hms Hmn Ho I. destruct o as [d|d|d|d|s fr|s fr| |]; cbn [op_size] in Ho.
  - apply (s_push_post static_push_back (fun x q => q ++ [x]) (fun x q => q ++ [x])); auto.
    + intros. now rewrite map_app.
    + intros. rewrite app_length. cbn. lia.
    + intros. rewrite map_app, total_app. cbn. lia.
    + intros b R Hn. apply (static_push_back_ok b l d R Hn). lia.
  - apply (s_push_post static_push_front (fun x q => x :: q) (fun x q => x :: q)); auto.
    + intros b R Hn. apply (static_push_front_ok b l d R Hn). lia.
  - cbn [s_step]. unfold s_merge. destruct (list_cases_snoc l) as [->|(r & [a x] & ->)].
    + rewrite (ring0_empty_iff _ _ (i_ring _ _ _ _ I)). cbn [match_nil].
      apply (s_push_post static_push_back (fun x q => q ++ [x]) (fun x q => q ++ [x])); auto.
      * intros. now rewrite map_app.
      * intros. rewrite app_length. cbn. lia.
      * intros. rewrite map_app, total_app. cbn. lia.
      * intros b R Hn. apply (static_push_back_ok b [] d R Hn). lia.
    + assert (Hns : forall g, (if static_empty (s_buf m) then s_push static_push_back m d else g) = (if static_empty (s_buf m) then s_push static_merge_back m d else g)).
      { intros g. rewrite (ring0_empty_iff _ _ (i_ring _ _ _ _ I)). destruct r; reflexivity. }
      rewrite Hns.
      apply (s_merge_post static_merge_back r a x [] ms mn m (r ++ [(a, x)]) d (MergeBack d) []); auto.
      * rewrite map_app. cbn [map snd spec_step]. rewrite last_split_snoc. reflexivity.
      * intros b t R Hd Hb. exact (static_merge_back_ok b r a x d t R Hd Hb).
      * intros b ->. reflexivity.
  - cbn [s_step]. unfold s_merge. destruct l as [|[a x] r].
    + rewrite (ring0_empty_iff _ _ (i_ring _ _ _ _ I)). cbn [match_nil].
      apply (s_push_post static_push_front (fun x q => x :: q) (fun x q => x :: q)); auto.
      * intros b R Hn. apply (static_push_front_ok b [] d R Hn). lia.
    + assert (Hns : forall g, (if static_empty (s_buf m) then s_push static_push_front m d else g) = (if static_empty (s_buf m) then s_push static_merge_front m d else g)).
      { intros g. rewrite (ring0_empty_iff _ _ (i_ring _ _ _ _ I)). reflexivity. }
      rewrite Hns.
      apply (s_merge_post static_merge_front [] a x r ms mn m ((a, x) :: r) d (MergeFront d) []); auto.
      * intros b t R Hd Hb. exact (static_merge_front_ok b r a x d t R Hd Hb).
      * intros b ->. reflexivity.
  - now apply s_pop_back_post.
  - now apply s_pop_front_post.
  - cbn [s_step]. exists (View (match map snd l with [] => None | b :: _ => Some (used b, visible b) end)), m, true, l.
    split; [|split; [exact I|left; reflexivity]].
    destruct l as [|[a x] r].
    + unfold s_view. rewrite (ring0_empty_iff _ _ (i_ring _ _ _ _ I)). reflexivity.
    + destruct (ring0_nonempty _ _ (i_ring _ _ _ _ I) ltac:(discriminate)) as [t R].
      pose proof (view_ok (s_buf m) [] a x r t _ R (ring_head _ _ _ R) (s_lim m)) as V.
      destruct m as [mb ml]. cbn [s_buf s_lim] in *. rewrite V. reflexivity.
  - cbn [s_step]. exists (View (match last_split (map snd l) with None => None | Some (_, b) => Some (used b, visible b) end)), m, true, l.
    split; [|split; [exact I|left; reflexivity]].
    destruct (list_cases_snoc l) as [->|(r & [a x] & ->)].
    + unfold s_view. rewrite (ring0_empty_iff _ _ (i_ring _ _ _ _ I)). reflexivity.
    + destruct (ring0_nonempty _ _ (i_ring _ _ _ _ I) ltac:(destruct r; discriminate)) as [t R].
      destruct (ring_last _ _ _ _ _ R) as [_ E2].
      pose proof (view_ok (s_buf m) r a x [] t _ R E2 (s_lim m)) as V.
      rewrite map_app. cbn [map snd]. rewrite last_split_snoc.
      destruct m as [mb ml]. cbn [s_buf s_lim] in *. rewrite V. reflexivity.
Qed.
