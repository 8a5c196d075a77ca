From Verif Require Import Base BufferSpec Buffer BufDynProof BufStaticProof BufStaticProof2.
Local Open Scope N_scope.

(** Replace the first element of the ring (same index slot, new address). *)
Lemma ring_rehead b l a x t b2 a' x' m2 :
  ring b ((a, x) :: l) t ->
  sb_head b2 = sb_head b -> sb_tail b2 = sb_tail b -> sb_csz b2 = sb_csz b -> sb_size b2 = sb_size b ->
  sb_circ b2 (sb_head b) = Some a' ->
  (forall i, i <> sb_head b -> sb_circ b2 i = sb_circ b i) ->
  Forall (owns m2) ((a', x') :: l) -> layout (sb_size b) t ((a', x') :: l) ->
  ring (set_mem b2 m2) ((a', x') :: l) t.
Proof.
  intros R Eh Et Ec Es Ea Eo Ho Hl.
  pose proof (r_n _ _ _ R) as Hn. pose proof (r_h _ _ _ R) as Hh. cbn [length] in Hn.
  constructor; cbn [set_mem sb_circ sb_tail sb_mem sb_csz sb_head sb_size length]; rewrite ?Ec, ?Eh, ?Es, ?Et; auto.
  - apply R.
  - apply R.
  - intros [|i] c y Hi.
    + cbn in Hi. injection Hi as <- <-. now rewrite idx_0 by exact Hh.
    + assert (i < length l)%nat by (apply nth_error_Some; cbn in Hi; congruence).
      rewrite Eo; [apply (r_circ _ _ _ R (S i) c y Hi)|].
      intros E. rewrite <- (idx_0 (sb_csz b) (sb_head b)) in E at 2 by exact Hh. apply idx_inj in E; lia.
  - rewrite Eo; [apply R|]. rewrite (r_t _ _ _ R). cbn [length]. intros E.
    rewrite <- (idx_0 (sb_csz b) (sb_head b)) in E at 2 by exact Hh. apply idx_inj in E; lia.
  - discriminate.
Qed.

Lemma static_merge_front_ok b l a x d t : ring b ((a, x) :: l) t -> d <> [] ->
  bsize x + N.of_nat (length d) < 2 ^ 62 ->
  grew b ((a, x) :: l) (fun l' => exists a', l' = (a', grow x d) :: l) d (static_merge_front b (N.of_nat (length d))).
Proof.
  intros R Hd Hb. set (s := N.of_nat (length d)) in *.
  assert (Hs0 : 0 < s) by (destruct d; [contradiction|unfold s; cbn; lia]).
  unfold static_merge_front. destruct (N.eqb_spec s 0) as [E|_]; [lia|].
  rewrite (ring_head _ _ _ R), (r_tail _ _ _ R). cbn [head_at].
  pose proof (r_lay _ _ _ R) as Hlay.
  pose proof (r_own _ _ _ R) as Ho. inversion_clear Ho as [|? ? Hx Hol]. pose proof Hx as (O1 & O2 & O3).
  rewrite O1. cbn [h_size h_used h_ptr].
  rewrite !padding_pad by lia.
  rewrite (wrap_lt (s + bsize x)) by lia.
  rewrite (N.add_comm s (bsize x)). rewrite !full_fl by lia.
  pose proof (fl_ge (bsize x + s)) as Hfge. pose proof (fl_ge (bsize x)) as Hfge0.
  pose proof (pad_add (bsize x) s) as Hpa. pose proof (pad_ge s) as Hpg.
  assert (Hp16 : 16 <= pad s) by (unfold pad; lia).
  assert (Hfadd : fl (bsize x + s) <= fl (bsize x) + pad s) by (unfold fl; lia).
  assert (Hbd : a + fl (bsize x) <= sb_size b) by (apply (layout_bound _ _ _ _ _ Hlay); now left).
  assert (Hlim : forall k, grew b ((a, x) :: l) (fun l' => exists a', l' = (a', grow x d) :: l) d (Some (mkres BUFF_LIMIT None b k))).
  { intros k. eexists. split; [reflexivity|]. cbn [r_buf r_code r_ptr mkres]. repeat split. left. repeat split. left. eauto. }
  (* the common tail *)
  assert (Hrel : forall start m1 k,
     start + fl (bsize x + s) <= sb_size b ->
     read_hdr m1 start = Some {| h_size := bsize x + s; h_used := 0; h_ptr := start + 32 |} ->
     same_out (sb_mem b) m1 start 24 ->
     (start + 24 <= a + 32 \/ a + 32 + bsize x <= start) ->
     (forall m2, same_out (sb_mem b) m2 start (fl (bsize x + s)) -> Forall (owns m2) l) ->
     layout (sb_size b) t ((start, grow x d) :: l) ->
     grew b ((a, x) :: l) (fun l' => exists a', l' = (a', grow x d) :: l) d
       (relocate_head (set_mem b m1) start {| h_size := bsize x; h_used := N.of_nat (used x); h_ptr := a + 32 |} k)).
  { intros start m1 k Hsz Hr Hs Hdj Hol2 Hl2. unfold relocate_head.
    cbn [set_mem sb_mem sb_size sb_head]. rewrite Hr. cbn [h_size h_used h_ptr]. unfold h_left. cbn [h_size h_used h_ptr].
    rewrite N.add_0_r.
    assert (Oh : holds m1 (a + 32) (raw x)).
    { apply holds_frame with (sb_mem b); [|exact O2]. intros y Hy. apply Hs. unfold bsize in *. lia. }
    destruct (move_mem_ok (sb_size b) m1 (start + 32) (a + 32) (raw x)) as (m2 & M1 & M2 & M3);
      [unfold bsize in *; lia|unfold bsize in *; lia|exact Oh|].
    fold (bsize x) in M1, M3. rewrite M1.
    rewrite (read_hdr_frame m1 m2 start) by (intros y Hy; apply M3; lia). rewrite Hr.
    rewrite pop_hdr_ok by (cbn [h_used h_size]; unfold bsize in *; lia).
    cbn [h_size h_used h_ptr].
    destruct (write_hdr_ok (sb_size b) m2 start {| h_size := bsize x + s; h_used := 0 + (bsize x - (bsize x - N.of_nat (used x))); h_ptr := start + 32 |}) as (m3 & W & W1 & W2); [lia|].
    rewrite W. eexists. split; [reflexivity|].
    cbn [r_buf r_code r_ptr mkres set_circ set_mem sb_size sb_csz sb_mem]. split; [reflexivity|]. split; [reflexivity|].
    right. split; [reflexivity|].
    destruct (write_data_ok (sb_size b) m3 (start + 32 + bsize x) d) as (m4 & D1 & D2 & D3); [fold s; lia|].
    exists (start + 32 + bsize x), m4, ((start, grow x d) :: l), t.
    split; [reflexivity|]. split; [exact D1|]. split; [eauto|].
    assert (Hall : same_out (sb_mem b) m4 start (fl (bsize x + s))).
    { intros y Hy. rewrite D3 by (fold s; lia). rewrite W2 by lia. rewrite M3 by lia. apply Hs. lia. }
    eapply (ring_rehead b l a x t); eauto; cbn [set_circ set_mem sb_circ sb_tail sb_head sb_csz sb_size]; auto.
    - apply upd_same.
    - intros i H1. now rewrite upd_other by exact H1.
    - constructor; [|now apply Hol2]. split; [|split].
      + rewrite bsize_grow. cbn [grow used]. fold s. rewrite (read_hdr_frame m3 m4 start) by (intros y Hy; apply D3; lia).
        rewrite W1. do 2 f_equal. unfold bsize in *. lia.
      + cbn [grow raw]. apply holds_app.
        * apply holds_frame with m2; [|exact M2]. intros y Hy. unfold bsize in *. rewrite D3 by lia. apply W2. lia.
        * exact D2.
      + cbn [grow raw used]. rewrite app_length. lia. }
  destruct (N.leb_spec a t) as [L|L].
  - destruct (layout_lin _ _ _ Hlay L) as (Hch & Ht & _). cbn [head_at] in Hch. apply chain_skip_head in Hch.
    pose proof (chain_le _ _ _ Hch) as Hle.
    rewrite buffer_offset_ge by lia. rewrite N.sub_0_r.
    destruct (N.leb_spec (pad s) a) as [L2|L2].
    + replace (0 + (a - pad s)) with (a - pad s) by lia.
      destruct (create_ok (sb_size b) (sb_mem b) (a - pad s) (fl (bsize x + s)) (bsize x + s) Hb ltac:(lia) ltac:(lia)) as (m1 & E & Hr & Hs).
      rewrite E. apply Hrel; auto; try lia.
      * intros m2 Hm. apply owns_chain with (m := sb_mem b) (p := a - pad s) (n := fl (bsize x + s)) (lo := a + fl (bsize x)) (hi := t); auto. lia.
      * constructor; [|lia|discriminate]. cbn [chain]. rewrite bsize_grow. fold s. split; [lia|].
        apply chain_lo with (a + fl (bsize x)); [exact Hch|lia].
    + rewrite buffer_offset_le by lia.
      destruct (N.leb_spec (sb_size b - t) (fl (bsize x + s))) as [L3|L3]; [apply Hlim|].
      replace (t + (sb_size b - t - fl (bsize x + s))) with (sb_size b - fl (bsize x + s)) by lia.
      destruct (create_ok (sb_size b) (sb_mem b) (sb_size b - fl (bsize x + s)) (fl (bsize x + s)) (bsize x + s) Hb ltac:(lia) ltac:(lia)) as (m1 & E & Hr & Hs).
      rewrite E. apply Hrel; auto; try lia.
      * intros m2 Hm. apply owns_chain with (m := sb_mem b) (p := sb_size b - fl (bsize x + s)) (n := fl (bsize x + s)) (lo := a + fl (bsize x)) (hi := t); auto. lia.
      * change l with ([] ++ l). apply lay_wrap.
        -- cbn [chain]. rewrite bsize_grow. fold s. lia.
        -- apply chain_lo with (a + fl (bsize x)); [exact Hch|lia].
        -- lia.
  - destruct (layout_wrap _ _ _ Hlay L) as (a0 & x0 & hi & low & El & Hhi & Hlow & Hta).
    injection El as <- <- El. apply chain_skip_head in Hhi.
    rewrite buffer_offset_le by lia.
    destruct (N.leb_spec (a - t) (pad s)) as [L3|L3]; [apply Hlim|].
    replace (t + (a - t - pad s)) with (a - pad s) by lia.
    destruct (create_ok (sb_size b) (sb_mem b) (a - pad s) (fl (bsize x + s)) (bsize x + s) Hb ltac:(lia) ltac:(lia)) as (m1 & E & Hr & Hs).
    rewrite E. apply Hrel; auto; try lia.
    + intros m2 Hm. rewrite El in Hol |- *. rewrite Forall_app in Hol. apply Forall_app. split.
      * apply owns_chain with (m := sb_mem b) (p := a - pad s) (n := fl (bsize x + s)) (lo := a + fl (bsize x)) (hi := sb_size b); auto; try lia; try apply Hol.
      * apply owns_chain with (m := sb_mem b) (p := a - pad s) (n := fl (bsize x + s)) (lo := 0) (hi := t); auto; try lia; try apply Hol.
    + rewrite El. apply lay_wrap; [|exact Hlow|lia].
      cbn [chain]. rewrite bsize_grow. fold s. split; [lia|].
      apply chain_lo with (a + fl (bsize x)); [exact Hhi|lia].
Qed.

(* ---------------------------------------------------------------- pop *)
Definition popped (s : N) (x : blk) : blk := {| raw := raw x; used := used x + N.to_nat s |}.

(** Rewriting one header in place. *)
Lemma pop_one sz m a x s l1 l2 t :
  layout sz t (l1 ++ (a, x) :: l2) -> Forall (owns m) (l1 ++ (a, x) :: l2) ->
  s <= unread x -> bsize x < 2 ^ 63 ->
  let h := {| h_size := bsize x; h_used := N.of_nat (used x); h_ptr := a + 32 |} in
  exists m', write_hdr sz m a (pop_hdr h s) = Some m' /\
    h_left (pop_hdr h s) = unread x - s /\
    Forall (owns m') (l1 ++ (a, popped s x) :: l2) /\ layout sz t (l1 ++ (a, popped s x) :: l2).
Proof.
  intros Hl Ho Hs Hb. cbv zeta. unfold unread in Hs. fold (bsize x) in Hs.
  assert (Hin : In (a, x) (l1 ++ (a, x) :: l2)) by (apply in_or_app; right; now left).
  assert (Hown : owns m (a, x)) by (rewrite Forall_forall in Ho; now apply Ho).
  pose proof Hown as (O1 & O2 & O3). pose proof (fl_ge (bsize x)) as Hf.
  pose proof (layout_bound _ _ _ _ _ Hl Hin) as Hbd.
  assert (O3' : N.of_nat (used x) <= bsize x) by (unfold bsize; lia).
  rewrite pop_hdr_ok by (cbn [h_used h_size]; lia). cbn [h_size h_used h_ptr].
  destruct (write_hdr_ok sz m a {| h_size := bsize x; h_used := N.of_nat (used x) + s; h_ptr := a + 32 |}) as (m' & E & W1 & W2); [lia|].
  exists m'. split; [exact E|]. split; [unfold h_left, unread; cbn [h_size h_used]; fold (bsize x); lia|].
  (* every other block is disjoint from the header just written *)
  assert (Hdis : forall l1' l2' lo hi, chain lo (l1' ++ (a, x) :: l2') hi ->
      Forall (owns m) (l1' ++ (a, x) :: l2') ->
      Forall (owns m') (l1' ++ (a, popped s x) :: l2') /\ chain lo (l1' ++ (a, popped s x) :: l2') hi).
  { intros l1' l2' lo hi Hc Hoo. rewrite Forall_app in Hoo. destruct Hoo as [Ha Hb2]. inversion_clear Hb2 as [|? ? _ Hb3].
    apply chain_app in Hc. destruct Hc as (mid & C1 & C2). cbn [chain] in C2. destruct C2 as [C2 C3].
    split.
    - apply Forall_app. split; [|constructor].
      + apply owns_chain with (m := m) (p := a) (n := 24) (lo := lo) (hi := mid); auto.
      + split; [|split].
        * rewrite W1. do 2 f_equal. unfold popped. cbn [used]. lia.
        * cbn [popped raw]. apply holds_frame with m; [|exact O2]. intros y Hy. apply W2. lia.
        * cbn [popped raw used]. unfold bsize in *. lia.
      + apply owns_chain with (m := m) (p := a) (n := 24) (lo := a + fl (bsize x)) (hi := hi); auto; lia.
    - apply chain_app. exists mid. split; [exact C1|]. cbn [chain]. split; [exact C2|exact C3]. }
  assert (Hsplit : (exists lo hi, chain lo (l1 ++ (a, x) :: l2) hi /\
                     (chain lo (l1 ++ (a, popped s x) :: l2) hi -> layout sz t (l1 ++ (a, popped s x) :: l2))) \/
                   True) by (right; exact I).
  clear Hsplit.
  remember (l1 ++ (a, x) :: l2) as L eqn:EL. destruct Hl as [L H1 H2 H3|a0 x0 hi low H1 H2 H3].
  - subst L. destruct (Hdis l1 l2 0 t H1 Ho) as [D1 D2]. split; [exact D1|].
    constructor; auto. destruct l1; discriminate.
  - (* locate the block in the high or in the low part *)
    destruct (Nat.ltb_spec (length l1) (length ((a0, x0) :: hi))) as [Lt|Ge].
    + assert (Hhi : exists hi2, (a0, x0) :: hi = l1 ++ (a, x) :: hi2 /\ l2 = hi2 ++ low).
      { exists (skipn (S (length l1)) ((a0, x0) :: hi)).
        assert (E1 : firstn (length l1) ((a0, x0) :: hi ++ low) = l1).
        { rewrite EL, firstn_app, firstn_all, Nat.sub_diag. cbn. now rewrite app_nil_r. }
        assert (E2 : skipn (length l1) ((a0, x0) :: hi ++ low) = (a, x) :: l2).
        { rewrite EL, skipn_app, skipn_all, Nat.sub_diag. reflexivity. }
        rewrite app_comm_cons in E1, E2. rewrite firstn_app in E1.
        replace (length l1 - length ((a0, x0) :: hi))%nat with 0%nat in E1 by lia. cbn [firstn] in E1. rewrite app_nil_r in E1.
        rewrite skipn_app in E2. replace (length l1 - length ((a0, x0) :: hi))%nat with 0%nat in E2 by lia.
        change (skipn 0 low) with low in E2.
        pose proof (firstn_skipn (length l1) ((a0, x0) :: hi)) as E3. rewrite E1 in E3.
        destruct (skipn (length l1) ((a0, x0) :: hi)) as [|p q] eqn:E4.
        { apply (f_equal (@length _)) in E4. rewrite skipn_length in E4. cbn [length] in *. lia. }
        cbn [app] in E2. injection E2 as -> E2.
        assert (E5 : skipn (S (length l1)) ((a0, x0) :: hi) = q).
        { rewrite <- E3. rewrite skipn_app, skipn_all2 by lia. replace (S (length l1) - length l1)%nat with 1%nat by lia. reflexivity. }
        rewrite E5. split; [now symmetry|now symmetry]. }
      destruct Hhi as (hi2 & Eh & El2).
      clear EL Hin. subst l2. rewrite !app_comm_cons, !app_assoc.
      rewrite app_comm_cons, Eh in Ho. rewrite Eh in H1. rewrite Forall_app in Ho. destruct Ho as [Ho1 Ho2].
      destruct (Hdis l1 hi2 a0 sz H1 Ho1) as [D1 D2].
      split.
      * apply Forall_app. split; [exact D1|].
        apply owns_chain with (m := m) (p := a) (n := 24) (lo := 0) (hi := t); auto. left.
        assert (a0 <= a); [|lia].
        destruct (chain_In _ _ _ _ _ H1 (in_or_app l1 ((a,x)::hi2) (a,x) (or_intror (or_introl eq_refl)))). lia.
      * destruct l1 as [|[a1 x1] l1].
        -- cbn [app] in Eh. injection Eh as -> -> ->. cbn [app] in *. apply lay_wrap; auto.
        -- cbn [app] in Eh. injection Eh as -> -> ->. cbn [app] in *. apply lay_wrap; auto.
    + assert (Hlo : exists low1, low = low1 ++ (a, x) :: l2 /\ l1 = ((a0, x0) :: hi) ++ low1).
      { exists (skipn (length ((a0, x0) :: hi)) l1).
        assert (E1 : skipn (length ((a0, x0) :: hi)) (((a0, x0) :: hi) ++ low) = low).
        { rewrite skipn_app, skipn_all, Nat.sub_diag. reflexivity. }
        assert (E2 : firstn (length ((a0, x0) :: hi)) (((a0, x0) :: hi) ++ low) = (a0, x0) :: hi).
        { rewrite firstn_app, firstn_all, Nat.sub_diag. cbn [firstn]. apply app_nil_r. }
        rewrite <- app_comm_cons in E1, E2. rewrite EL in E1, E2.
        rewrite skipn_app in E1. replace (length ((a0, x0) :: hi) - length l1)%nat with 0%nat in E1 by lia.
        rewrite firstn_app in E2. replace (length ((a0, x0) :: hi) - length l1)%nat with 0%nat in E2 by lia.
        cbn [firstn] in E2. rewrite app_nil_r in E2.
        split; [now symmetry|]. rewrite <- E2 at 1. symmetry. apply firstn_skipn. }
      destruct Hlo as (low1 & El & El1). subst low l1.
      rewrite <- app_assoc. rewrite app_comm_cons, Forall_app in Ho. destruct Ho as [Ho1 Ho2].
      destruct (Hdis low1 l2 0 t H2 Ho2) as [D1 D2].
      split.
      * apply Forall_app. split; [|exact D1].
        apply owns_chain with (m := m) (p := a) (n := 24) (lo := a0) (hi := sz); auto. right.
        destruct (chain_In _ _ _ _ _ H2 (in_or_app low1 ((a,x)::l2) (a,x) (or_intror (or_introl eq_refl)))). lia.
      * cbn [app]. apply lay_wrap; auto.
Qed.

Lemma set_mem_ring b l l' t m' : ring b l t -> map fst l' = map fst l ->
  Forall (owns m') l' -> layout (sb_size b) t l' -> ring (set_mem b m') l' t.
Proof.
  intros R Hf Ho Hl. assert (Elen : length l' = length l) by (rewrite <- (map_length fst), Hf; apply map_length).
  constructor; cbn [set_mem sb_circ sb_tail sb_mem sb_csz sb_head sb_size]; rewrite ?Elen; try apply R; auto.
  - intros i a x Hi. apply (map_nth_error fst) in Hi. rewrite Hf in Hi. cbn in Hi.
    rewrite nth_error_map in Hi. destruct (nth_error l i) as [[c y]|] eqn:E; [|discriminate]. cbn in Hi. injection Hi as ->.
    now apply (r_circ _ _ _ R i a y).
  - intros ->. apply (r_emp _ _ _ R). destruct l; [reflexivity|discriminate].
Qed.

Lemma layout_drop_last sz t l a x : layout sz t (l ++ [(a, x)]) -> l <> [] -> layout sz a l.
Proof.
  intros H Hne. remember (l ++ [(a, x)]) as L eqn:EL. destruct H as [L H1 H2 H3|a0 x0 hi low H1 H2 H3].
  - subst L. apply chain_app in H1. destruct H1 as (mid & C1 & C2). cbn [chain] in C2. pose proof (fl_ge (bsize x)).
    constructor; [apply chain_hi with mid; [exact C1|lia]|lia|contradiction].
  - destruct low as [|pl low] using rev_ind.
    + rewrite app_nil_r in EL. destruct l as [|[a1 x1] l]; [contradiction|]. cbn [app] in EL. injection EL as -> -> ->.
      change ((a1, x1) :: l ++ [(a, x)]) with (((a1, x1) :: l) ++ [(a, x)]) in H1.
      apply chain_app in H1. destruct H1 as (mid & C1 & C2). cbn [chain] in C2. pose proof (fl_ge (bsize x)).
      constructor; [|lia|discriminate]. apply chain_lo with a1; [|lia]. apply chain_hi with mid; [exact C1|lia].
    + clear IHlow. rewrite app_comm_cons, app_assoc in EL. apply app_inj_tail in EL. destruct EL as [<- ->].
      apply chain_app in H2. destruct H2 as (mid & C1 & C2). cbn [chain] in C2. pose proof (fl_ge (bsize x)).
      cbn [app]. apply lay_wrap; [exact H1|apply chain_hi with mid; [exact C1|lia]|lia].
Qed.

Lemma layout_drop_first sz t a x l : layout sz t ((a, x) :: l) -> l <> [] -> layout sz t l.
Proof.
  intros H Hne. remember ((a, x) :: l) as L eqn:EL. destruct H as [L H1 H2 H3|a0 x0 hi low H1 H2 H3].
  - subst L. cbn [chain] in H1. destruct H1 as [C1 C2]. pose proof (fl_ge (bsize x)).
    constructor; [apply chain_lo with (a + fl (bsize x)); [exact C2|lia]|exact H2|contradiction].
  - injection EL as -> -> <-. destruct hi as [|[a1 x1] hi].
    + cbn [app] in *. pose proof (chain_le _ _ _ H1). constructor; [exact H2|lia|contradiction].
    + cbn [app]. cbn [chain] in H1. destruct H1 as [C1 [C2 C3]]. pose proof (fl_ge (bsize x)).
      apply lay_wrap; [cbn [chain]; split; [lia|exact C3]|exact H2|lia].
Qed.
