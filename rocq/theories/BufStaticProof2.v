From Verif Require Import Base BufferSpec Buffer BufDynProof BufStaticProof.
Local Open Scope N_scope.

(** Publishing a new first block at address [a]. *)
Lemma publish_head_ok b b1 l t a x k :
  ring b l t -> (length l + 1 < sb_csz b)%nat ->
  sb_head b1 = sb_head b -> sb_tail b1 = sb_tail b -> sb_csz b1 = sb_csz b -> sb_size b1 = sb_size b ->
  (forall i, sb_circ b1 i = sb_circ b i) ->
  read_hdr (sb_mem b1) a = Some {| h_size := bsize x; h_used := 0; h_ptr := a + 32 |} ->
  exists b2, publish_head b1 a k = Some (mkres SUCCESS (Some (a + 32)) b2 k) /\
    sb_mem b2 = sb_mem b1 /\ sb_size b2 = sb_size b /\ sb_csz b2 = sb_csz b /\
    (forall m2, Forall (owns m2) ((a, x) :: l) -> layout (sb_size b) t ((a, x) :: l) ->
       ring (set_mem b2 m2) ((a, x) :: l) t).
Proof.
  intros R Hn Eh Et0 Ec Es Eo Hr. unfold publish_head.
  cbn [set_circ set_mem set_tail set_head sb_circ sb_tail sb_mem sb_csz sb_head sb_size].
  rewrite Hr. cbn [h_ptr h_used]. rewrite N.add_0_r.
  eexists. split; [reflexivity|]. cbn [sb_mem sb_size sb_csz]. split; [reflexivity|]. split; [exact Es|]. split; [exact Ec|].
  intros m2 Ho Hl. pose proof (r_n _ _ _ R) as Hn'. pose proof (r_h _ _ _ R) as Hh. pose proof (r_c _ _ _ R) as Hc.
  rewrite Ec, Eh. set (h' := ((sb_head b + sb_csz b - 1) mod sb_csz b)%nat).
  assert (Hh' : (h' < sb_csz b)%nat) by (apply pre_head_lt; lia).
  constructor; cbn [set_circ set_mem set_tail set_head sb_circ sb_tail sb_mem sb_csz sb_head sb_size length]; rewrite ?Ec, ?Eh, ?Es;
    try lia; auto.
  - rewrite Et0, (r_t _ _ _ R). symmetry. apply idx_unshift; lia.
  - intros i c y Hi.
    assert (Hi' : (i < length ((a, x) :: l))%nat) by (apply nth_error_Some; congruence). cbn [length] in Hi'.
    destruct i as [|i].
    + cbn in Hi. injection Hi as <- <-. rewrite idx_0 by exact Hh'. apply upd_same.
    + cbn in Hi. rewrite upd_other.
      * unfold h'. rewrite idx_unshift by lia. rewrite Eo. now apply (r_circ _ _ _ R i c y).
      * intros E. rewrite <- (idx_0 (sb_csz b) h') in E at 2 by exact Hh'. apply idx_inj in E; lia.
  - rewrite upd_other.
    + rewrite Et0, Eo. apply R.
    + rewrite Et0, (r_t _ _ _ R). intros E.
      rewrite <- (idx_unshift (sb_csz b) (sb_head b) (length l)) in E by lia. fold h' in E.
      rewrite <- (idx_0 (sb_csz b) h') in E at 2 by exact Hh'. apply idx_inj in E; lia.
  - discriminate.
Qed.

Lemma chain_skip_head a x l lo hi : chain lo ((a, x) :: l) hi -> chain (a + fl (bsize x)) l hi.
Proof. cbn [chain]. tauto. Qed.

Lemma not_full b l : ring0 b l -> (length l + 1 < sb_csz b)%nat ->
  Nat.eqb ((sb_tail b + 1) mod sb_csz b) (sb_head b) = false.
Proof.
  intros R0 Hn. destruct R0 as [[t0 R0]|(-> & H1 & H2 & H3 & H4)].
  - apply Nat.eqb_neq. rewrite (r_t _ _ _ R0), idx_S by (try apply R0; lia). intros E.
    assert (S (length l) = 0)%nat; [|lia].
    apply (idx_inj (sb_csz b) (sb_head b)); try apply R0; try lia. rewrite E, idx_0; [reflexivity|apply R0].
  - rewrite H1, H2. rewrite Nat.mod_small by lia. reflexivity.
Qed.

Lemma static_push_front_ok b l d : ring0 b l -> (length l + 1 < sb_csz b)%nat ->
  N.of_nat (length d) < 2 ^ 62 ->
  grew b l (fun l' => exists a, l' = (a, fresh d) :: l) d (static_push_front b (N.of_nat (length d))) /\
  (forall r, static_push_front b (N.of_nat (length d)) = Some r -> r_ok r = true).
Proof.
  intros R0 Hn Hd. set (s := N.of_nat (length d)).
  destruct (empty_init_ok b l R0) as (t & R & Es & Ec).
  assert (Hc2 : (2 <= sb_csz b)%nat) by (rewrite <- Ec; apply R).
  unfold static_push_front. rewrite (not_full b l R0 Hn). cbv zeta.
  assert (Hk0 : Nat.leb 2 (sb_csz b) = true) by now apply Nat.leb_le.
  rewrite Hk0. set (b' := empty_init b) in *. clearbody b'.
  rewrite full_fl by exact Hd. rewrite (ring_head _ _ _ R), (r_tail _ _ _ R).
  set (h := head_at t l) in *. pose proof (r_lay _ _ _ R) as Hlay. pose proof (fl_ge s) as Hfl.
  assert (Hrec : forall p m1 k,
     p + fl s <= sb_size b' ->
     read_hdr m1 p = Some {| h_size := s; h_used := 0; h_ptr := p + 32 |} ->
     same_out (sb_mem b') m1 p 24 ->
     (forall m2, same_out (sb_mem b') m2 p (fl s) -> Forall (owns m2) l) ->
     layout (sb_size b') t ((p, fresh d) :: l) -> k = true ->
     grew b l (fun l' => exists a, l' = (a, fresh d) :: l) d (publish_head (set_mem b' m1) p k) /\
     (forall r, publish_head (set_mem b' m1) p k = Some r -> r_ok r = true)).
  { intros p m1 k Hp Hr Hs Ho Hl Hk.
    destruct (publish_head_ok b' (set_mem b' m1) l t p (fresh d) k R ltac:(rewrite Ec; exact Hn)) as (b2 & E & B1 & B2 & B3 & B4); auto.
    rewrite E. split; [|intros r Er; injection Er as <-; exact Hk].
    exists (mkres SUCCESS (Some (p + 32)) b2 k). cbn [r_buf r_code r_ptr mkres].
    split; [reflexivity|]. split; [now rewrite B2|]. split; [now rewrite B3|]. right. split; [reflexivity|].
    destruct (fill_ok (sb_size b') (sb_mem b') m1 p d Hp Hr Hs) as (m2 & F1 & F2 & F3).
    exists (p + 32), m2, ((p, fresh d) :: l), t. split; [reflexivity|].
    split; [rewrite B1, <- Es; exact F1|]. split; [eauto|].
    apply B4; [|exact Hl]. constructor; [exact F2|now apply Ho]. }
  assert (Hlim : grew b l (fun l' => exists a, l' = (a, fresh d) :: l) d (Some (mkres BUFF_LIMIT None b' true)) /\
     (forall r, Some (mkres BUFF_LIMIT None b' true) = Some r -> r_ok r = true)).
  { split; [|intros r Er; injection Er as <-; reflexivity].
    eexists. split; [reflexivity|]. cbn [r_buf r_code r_ptr mkres]. split; [exact Es|]. split; [exact Ec|]. left.
    repeat split; auto. left. eauto. }
  destruct (N.leb_spec h t) as [L|L].
  - destruct (layout_lin _ _ _ Hlay L) as (Hch & Ht & Hemp).
    rewrite buffer_offset_ge by lia. rewrite N.sub_0_r.
    destruct (N.leb_spec (fl s) h) as [L2|L2].
    + replace (0 + (h - fl s)) with (h - fl s) by lia.
      destruct (create_ok (sb_size b') (sb_mem b') (h - fl s) (fl s) s Hd ltac:(lia) ltac:(lia)) as (m1 & E & Hr & Hs).
      rewrite E. apply Hrec; auto.
      * lia.
      * intros m2 Hm. apply owns_chain with (m := sb_mem b') (p := h - fl s) (n := fl s) (lo := h) (hi := t); auto; [lia|apply R].
      * constructor; [|lia|discriminate].
        cbn [chain]. split; [lia|]. unfold bsize, fresh. cbn [raw]. fold s.
        replace (h - fl s + fl s) with h by lia. exact Hch.
      * destruct (N.eqb_spec h (h - fl s + fl s)); [reflexivity|lia].
    + rewrite buffer_offset_le by lia.
      destruct (N.leb_spec (sb_size b' - t) (fl s)) as [L3|L3]; [exact Hlim|].
      replace (t + (sb_size b' - t - fl s)) with (sb_size b' - fl s) by lia.
      destruct (create_ok (sb_size b') (sb_mem b') (sb_size b' - fl s) (fl s) s Hd ltac:(lia) ltac:(lia)) as (m1 & E & Hr & Hs).
      rewrite E. apply Hrec; auto.
      * lia.
      * intros m2 Hm. apply owns_chain with (m := sb_mem b') (p := sb_size b' - fl s) (n := fl s) (lo := h) (hi := t); auto; [lia|apply R].
      * change l with ([] ++ l). apply lay_wrap.
        -- cbn [chain]. split; [lia|]. unfold bsize, fresh. cbn [raw]. fold s. lia.
        -- apply chain_lo with h; [exact Hch|lia].
        -- lia.
      * destruct (N.eqb_spec (sb_size b' - fl s + fl s) (sb_size b')); [reflexivity|lia].
  - destruct (layout_wrap _ _ _ Hlay L) as (a & x & hi & low & El & Hhi & Hlow & Hta).
    assert (Eh : h = a) by (unfold h; rewrite El; reflexivity).
    rewrite buffer_offset_le by lia.
    destruct (N.leb_spec (h - t) (fl s)) as [L3|L3]; [exact Hlim|].
    pose proof (chain_le _ _ _ Hhi) as Hasz.
    replace (t + (h - t - fl s)) with (h - fl s) by lia.
    destruct (create_ok (sb_size b') (sb_mem b') (h - fl s) (fl s) s Hd ltac:(lia) ltac:(lia)) as (m1 & E & Hr & Hs).
    rewrite E. apply Hrec; auto.
    * lia.
    * intros m2 Hm. rewrite El, app_comm_cons. pose proof (r_own _ _ _ R) as Ho. rewrite El, app_comm_cons, Forall_app in Ho.
      apply Forall_app. split.
      -- apply owns_chain with (m := sb_mem b') (p := h - fl s) (n := fl s) (lo := a) (hi := sb_size b'); auto; [lia|apply Ho].
      -- apply owns_chain with (m := sb_mem b') (p := h - fl s) (n := fl s) (lo := 0) (hi := t); auto; [lia|apply Ho].
    * rewrite El. change ((h - fl s, fresh d) :: (a, x) :: hi ++ low) with ((h - fl s, fresh d) :: ((a, x) :: hi) ++ low).
      apply lay_wrap; [|exact Hlow|lia].
      change (chain (h - fl s) ((h - fl s, fresh d) :: (a, x) :: hi) (sb_size b')) with
        (h - fl s <= h - fl s /\ chain (h - fl s + fl s) ((a, x) :: hi) (sb_size b')).
      split; [lia|]. replace (h - fl s + fl s) with a by lia. exact Hhi.
    * destruct (N.eqb_spec (h - fl s + fl s) h); [reflexivity|lia].
Qed.

(* ---------------------------------------------------------------- merge *)
Definition grow (x : blk) (d : bytes) : blk := {| raw := raw x ++ d; used := used x |}.
Lemma bsize_grow x d : bsize (grow x d) = bsize x + N.of_nat (length d).
Proof. unfold bsize, grow. cbn. rewrite app_length. lia. Qed.

Lemma write_data_nil sz m p : p <= sz -> exists m', write_data sz m p [] = Some m' /\ forall x, m' x = m x.
Proof.
  intros H. unfold write_data. cbn [length]. destruct (N.leb_spec (p + N.of_nat 0) sz); [|lia].
  eexists. split; [reflexivity|]. intros x. cbv beta.
  destruct (N.leb_spec p x), (N.ltb_spec x (p + N.of_nat 0)); cbn [andb]; try reflexivity; lia.
Qed.

(** Growing the block at [a] in place: new header size, bytes appended. *)
Lemma grow_in_place sz m a x d m1 : a + fl (bsize x + N.of_nat (length d)) <= sz ->
  owns m (a, x) ->
  read_hdr m1 a = Some {| h_size := bsize x + N.of_nat (length d); h_used := N.of_nat (used x); h_ptr := a + 32 |} ->
  same_out m m1 a 24 ->
  exists m2, write_data sz m1 (a + 32 + bsize x) d = Some m2 /\ owns m2 (a, grow x d) /\
             same_out m m2 a (fl (bsize x + N.of_nat (length d))).
Proof.
  intros Hb (O1 & O2 & O3) Hr Hs. pose proof (fl_ge (bsize x + N.of_nat (length d))) as Hf.
  destruct (write_data_ok sz m1 (a + 32 + bsize x) d) as (m2 & E & W1 & W2); [lia|].
  exists m2. split; [exact E|]. split; [|].
  - split; [|split].
    + rewrite bsize_grow. cbn [grow used]. etransitivity; [|exact Hr]. apply read_hdr_frame. intros y Hy. apply W2. lia.
    + cbn [grow raw]. apply holds_app.
      * apply holds_frame with m; [|exact O2]. intros y Hy. unfold bsize in *. rewrite W2 by lia. apply Hs. lia.
      * exact W1.
    + cbn [grow raw used]. rewrite app_length. lia.
  - intros y Hy. rewrite W2 by lia. apply Hs. lia.
Qed.

(** Replace the last element of the ring (same index slot, new address). *)
Lemma ring_relast b l a x t b2 a' x' t' m2 :
  ring b (l ++ [(a, x)]) t ->
  sb_head b2 = sb_head b -> sb_tail b2 = sb_tail b -> sb_csz b2 = sb_csz b -> sb_size b2 = sb_size b ->
  sb_circ b2 (tail_index b) = Some a' -> sb_circ b2 (sb_tail b) = Some t' ->
  (forall i, i <> tail_index b -> i <> sb_tail b -> sb_circ b2 i = sb_circ b i) ->
  Forall (owns m2) (l ++ [(a', x')]) -> layout (sb_size b) t' (l ++ [(a', x')]) ->
  ring (set_mem b2 m2) (l ++ [(a', x')]) t'.
Proof.
  intros R Eh Et Ec Es Ea Ett Eo Ho Hl.
  destruct (ring_last _ _ _ _ _ R) as [Ei _].
  pose proof (r_n _ _ _ R) as Hn. pose proof (r_h _ _ _ R) as Hh. rewrite app_length in Hn. cbn in Hn.
  constructor; cbn [set_mem sb_circ sb_tail sb_mem sb_csz sb_head sb_size]; rewrite ?Ec, ?Eh, ?Es, ?Et; auto.
  - apply R.
  - rewrite app_length. cbn. lia.
  - rewrite (r_t _ _ _ R), !app_length. reflexivity.
  - intros i c y Hi.
    assert (Hi' : (i < length (l ++ [(a', x')]))%nat) by (apply nth_error_Some; congruence).
    rewrite app_length in Hi'. cbn in Hi'.
    destruct (Nat.eqb_spec i (length l)) as [->|Hne].
    + rewrite nth_error_app2, Nat.sub_diag in Hi by lia. injection Hi as <- <-. now rewrite <- Ei.
    + rewrite nth_error_app1 in Hi by lia. rewrite Eo.
      * apply (r_circ _ _ _ R i c y). now rewrite nth_error_app1 by lia.
      * rewrite Ei. intros E. apply idx_inj in E; lia.
      * rewrite (r_t _ _ _ R), app_length. cbn. intros E. apply idx_inj in E; lia.
  - intros E. destruct l; discriminate.
Qed.

Lemma last_neq_tail b l a x t : ring b (l ++ [(a, x)]) t -> tail_index b <> sb_tail b.
Proof.
  intros R. destruct (ring_last _ _ _ _ _ R) as [-> _]. rewrite (r_t _ _ _ R), app_length. cbn.
  pose proof (r_n _ _ _ R) as Hn. rewrite app_length in Hn. cbn in Hn.
  intros E. apply idx_inj in E; try apply R; lia.
Qed.

Lemma pop_hdr_ok h s : h_used h + s <= h_size h -> h_size h < 2 ^ 63 ->
  pop_hdr h s = {| h_size := h_size h; h_used := h_used h + s; h_ptr := h_ptr h |}.
Proof. intros H1 H2. unfold pop_hdr. rewrite wrap_half by lia. destruct (N.ltb_spec (h_size h) (h_used h + s)); [lia|reflexivity]. Qed.

Lemma static_merge_back_ok b l a x d t : ring b (l ++ [(a, x)]) t -> d <> [] ->
  bsize x + N.of_nat (length d) < 2 ^ 62 ->
  grew b (l ++ [(a, x)]) (fun l' => exists a', l' = l ++ [(a', grow x d)]) d (static_merge_back b (N.of_nat (length d))).
Proof.
  intros R Hd Hb. set (s := N.of_nat (length d)) in *.
  assert (Hs0 : 0 < s) by (destruct d; [contradiction|unfold s; cbn; lia]).
  unfold static_merge_back. destruct (N.eqb_spec s 0) as [E|_]; [lia|].
  rewrite (ring_head _ _ _ R), (r_tail _ _ _ R).
  rewrite (ring0_empty_iff b _ (or_introl (ex_intro _ t R))).
  replace (match_nil (l ++ [(a, x)])) with false by (destruct l; reflexivity).
  destruct (ring_last _ _ _ _ _ R) as [Ei Ela]. rewrite Ela.
  pose proof (last_neq_tail _ _ _ _ _ R) as Hneq.
  set (h := head_at t (l ++ [(a, x)])) in *. pose proof (r_lay _ _ _ R) as Hlay.
  pose proof (r_own _ _ _ R) as Ho. rewrite Forall_app in Ho. destruct Ho as [Hol Hox].
  inversion_clear Hox as [|? ? Hx _]. pose proof Hx as (O1 & O2 & O3).
  rewrite O1. cbn [h_size h_used h_ptr].
  rewrite !padding_pad by lia. unfold h_left. cbn [h_size h_used].
  rewrite (wrap_lt (bsize x + s)) by lia. rewrite (wrap_lt (s + bsize x)) by lia.
  rewrite (N.add_comm s (bsize x)). rewrite !full_fl by lia.
  pose proof (fl_ge (bsize x + s)) as Hfge. pose proof (fl_ge (bsize x)) as Hfge0.
  pose proof (pad_add (bsize x) s) as Hpa.
  assert (Hfadd : fl (bsize x + s) <= fl (bsize x) + pad s) by (unfold fl; lia).
  assert (Hlim : forall k, grew b (l ++ [(a, x)]) (fun l' => exists a', l' = l ++ [(a', grow x d)]) d (Some (mkres BUFF_LIMIT None b k))).
  { intros k. eexists. split; [reflexivity|]. cbn [r_buf r_code r_ptr mkres]. repeat split. left. repeat split. left. eauto. }
  (* in place *)
  assert (Hplace : forall k, a + fl (bsize x + s) <= sb_size b ->
     (forall m2, same_out (sb_mem b) m2 a (fl (bsize x + s)) -> Forall (owns m2) l) ->
     layout (sb_size b) (a + fl (bsize x + s)) (l ++ [(a, grow x d)]) ->
     grew b (l ++ [(a, x)]) (fun l' => exists a', l' = l ++ [(a', grow x d)]) d
       (match write_hdr (sb_size b) (sb_mem b) a {| h_size := bsize x + s; h_used := N.of_nat (used x); h_ptr := a + 32 |} with
        | Some m => Some (mkres SUCCESS (Some (a + 32 + bsize x))
                      (set_circ (set_mem b m) (sb_tail b) (Some (a + fl (bsize x + s)))) k)
        | None => None end)).
  { intros k Hbd Hol2 Hlay2.
    destruct (write_hdr_ok (sb_size b) (sb_mem b) a {| h_size := bsize x + s; h_used := N.of_nat (used x); h_ptr := a + 32 |}) as (m1 & E & Hr & Hs); [lia|].
    rewrite E. eexists. split; [reflexivity|]. cbn [r_buf r_code r_ptr mkres set_circ set_mem sb_size sb_csz sb_mem]. split; [reflexivity|]. split; [reflexivity|].
    right. split; [reflexivity|].
    destruct (grow_in_place (sb_size b) (sb_mem b) a x d m1 Hbd Hx Hr Hs) as (m2 & W & G1 & G2).
    exists (a + 32 + bsize x), m2, (l ++ [(a, grow x d)]), (a + fl (bsize x + s)).
    split; [reflexivity|]. split; [exact W|]. split; [eauto|].
    apply ring_relast with (b := b) (a := a) (x := x) (t := t); auto; cbn [set_circ set_mem sb_circ].
    - rewrite upd_other by exact Hneq. exact Ela.
    - apply upd_same.
    - intros i _ Hi. now apply upd_other.
    - apply Forall_snoc; auto. }
  destruct (N.leb_spec h t) as [L|L]; cbn [orb].
  - destruct (layout_lin _ _ _ Hlay L) as (Hch & Ht & _).
    apply chain_app in Hch. destruct Hch as (mid & Hc1 & Hc2). cbn [chain] in Hc2. destruct Hc2 as [Hc2 Hc3].
    rewrite andb_true_r. rewrite (buffer_offset_le t) by lia.
    destruct (N.leb_spec (pad s) (sb_size b - t)) as [L2|L2].
    + apply Hplace.
      * lia.
      * intros m2 Hm. apply owns_chain with (m := sb_mem b) (p := a) (n := fl (bsize x + s)) (lo := h) (hi := mid); auto; lia.
      * constructor; [|lia|destruct l; discriminate].
        apply chain_app. exists mid. split; [apply chain_lo with h; [exact Hc1|lia]|].
        cbn [chain]. rewrite bsize_grow. fold s. lia.
    + rewrite buffer_offset_le by lia. rewrite N.sub_0_r.
      destruct (N.leb_spec h (fl (bsize x + s))) as [L3|L3]; [apply Hlim|].
      destruct (create_ok (sb_size b) (sb_mem b) 0 h (bsize x + s) Hb ltac:(lia) ltac:(lia)) as (m1 & E & Hr & Hs).
      rewrite E. cbn [set_circ set_mem sb_mem sb_size sb_circ sb_csz].
      rewrite Hr.
      assert (Hfr : forall y, h <= y -> m1 y = sb_mem b y) by (intros y Hy; apply Hs; lia).
      assert (Hha : h <= a).
      { apply chain_le in Hc1. lia. }
      rewrite (read_hdr_frame (sb_mem b) m1 a) by (intros y Hy; apply Hfr; lia).
      rewrite O1. cbn [h_size h_used h_ptr]. rewrite N.add_0_r.
      unfold copy_mem.
      replace ((bsize x =? 0) || (0 + 32 + bsize x <=? a + 32) || (a + 32 + bsize x <=? 0 + 32)) with true
        by (symmetry; apply orb_true_iff; left; apply orb_true_iff; right; apply N.leb_le; lia).
      assert (Oh : holds m1 (a + 32) (raw x)).
      { apply holds_frame with (sb_mem b); [|exact O2]. intros y Hy. apply Hfr. lia. }
      destruct (move_mem_ok (sb_size b) m1 (0 + 32) (a + 32) (raw x)) as (m2 & M1 & M2 & M3);
        [unfold bsize in *; lia|unfold bsize in *; lia|exact Oh|].
      unfold bsize in *. rewrite M1. fold (bsize x) in *.
      rewrite pop_hdr_ok by (cbn [h_used h_size]; unfold bsize in *; lia).
      cbn [h_size h_used h_ptr].
      destruct (write_hdr_ok (sb_size b) m2 0 {| h_size := bsize x + s; h_used := 0 + (bsize x - (bsize x - N.of_nat (used x))); h_ptr := 0 + 32 |}) as (m3 & W & W1 & W2); [lia|].
      rewrite W. eexists. split; [reflexivity|].
      cbn [r_buf r_code r_ptr mkres set_circ set_mem sb_size sb_csz sb_mem]. split; [reflexivity|]. split; [reflexivity|].
      right. split; [reflexivity|].
      destruct (write_data_ok (sb_size b) m3 (0 + 32 + bsize x) d) as (m4 & D1 & D2 & D3); [fold s; lia|].
      exists (0 + 32 + bsize x), m4, (l ++ [(0, grow x d)]), (0 + fl (bsize x + s)).
      split; [reflexivity|]. split; [exact D1|]. split; [eauto|].
      assert (Hall : same_out (sb_mem b) m4 0 (fl (bsize x + s))).
      { intros y Hy. rewrite D3 by (fold s; lia). rewrite W2 by lia. rewrite M3 by (unfold bsize in *; lia). apply Hs. lia. }
      eapply (ring_relast b l a x t); eauto; cbn [set_circ set_mem sb_circ sb_tail sb_head sb_csz sb_size]; auto.
      * apply upd_same.
      * unfold tail_index in *. cbn [sb_tail sb_csz]. rewrite upd_other by (intros E2; apply Hneq; symmetry; exact E2). apply upd_same.
      * intros i H1 H2. rewrite upd_other by exact H1. now rewrite upd_other by exact H2.
      * apply Forall_snoc.
        -- apply owns_chain with (m := sb_mem b) (p := 0) (n := fl (bsize x + s)) (lo := h) (hi := mid); auto; lia.
        -- split; [|split].
           ++ rewrite bsize_grow. cbn [grow used]. fold s. rewrite (read_hdr_frame m3 m4 0) by (intros y Hy; apply D3; lia).
              rewrite W1. do 2 f_equal. unfold bsize in *. lia.
           ++ cbn [grow raw]. apply holds_app.
              ** apply holds_frame with m2; [|exact M2]. intros y Hy. unfold bsize in *. rewrite D3 by lia. apply W2. lia.
              ** exact D2.
           ++ cbn [grow raw used]. rewrite app_length. lia.
      * destruct l as [|[a0 x0] l0].
        -- cbn [app]. constructor; [|lia|discriminate]. cbn [chain]. rewrite bsize_grow. fold s. lia.
        -- cbn [app head_at] in h. cbn [app]. apply lay_wrap.
           ++ apply chain_hi with mid; [exact Hc1|lia].
           ++ cbn [chain]. rewrite bsize_grow. fold s. lia.
           ++ fold h. lia.
  - destruct (layout_wrap _ _ _ Hlay L) as (a0 & x0 & hi & low & El & Hhi & Hlow & Hta).
    assert (Eh : h = a0) by (unfold h; rewrite El; reflexivity). clearbody h. subst a0.
    pose proof (chain_le _ _ _ Hhi) as Hasz.
    destruct low as [|pl low0] using rev_ind.
    + (* the low part is empty: the last block is in the high part *)
      clear Hlow. rewrite app_nil_r in El.
      assert (Hin : In (a, x) ((h, x0) :: hi)).
      { rewrite <- El. apply in_or_app. right. now left. }
      destruct (chain_In _ _ _ _ _ Hhi Hin) as [Hha Hae].
      destruct (N.leb_spec h a) as [L2|L2]; [|lia].
      rewrite andb_false_r.
      rewrite (buffer_offset_le 0 h) by lia. rewrite N.sub_0_r.
      destruct (N.leb_spec h (fl (bsize x + s))) as [L3|L3]; [apply Hlim|].
      destruct (create_ok (sb_size b) (sb_mem b) 0 h (bsize x + s) Hb ltac:(lia) ltac:(lia)) as (m1 & E & Hr & Hs).
      rewrite E. cbn [set_circ set_mem sb_mem sb_size sb_circ sb_csz].
      rewrite Hr.
      assert (Hfr : forall y, h <= y -> m1 y = sb_mem b y) by (intros y Hy; apply Hs; lia).
      rewrite (read_hdr_frame (sb_mem b) m1 a) by (intros y Hy; apply Hfr; lia).
      rewrite O1. cbn [h_size h_used h_ptr]. rewrite N.add_0_r.
      unfold copy_mem.
      replace ((bsize x =? 0) || (0 + 32 + bsize x <=? a + 32) || (a + 32 + bsize x <=? 0 + 32)) with true
        by (symmetry; apply orb_true_iff; left; apply orb_true_iff; right; apply N.leb_le; lia).
      assert (Oh : holds m1 (a + 32) (raw x)).
      { apply holds_frame with (sb_mem b); [|exact O2]. intros y Hy. apply Hfr. lia. }
      destruct (move_mem_ok (sb_size b) m1 (0 + 32) (a + 32) (raw x)) as (m2 & M1 & M2 & M3);
        [unfold bsize in *; lia|unfold bsize in *; lia|exact Oh|].
      unfold bsize in *. rewrite M1. fold (bsize x) in *.
      rewrite pop_hdr_ok by (cbn [h_used h_size]; unfold bsize in *; lia).
      cbn [h_size h_used h_ptr].
      destruct (write_hdr_ok (sb_size b) m2 0 {| h_size := bsize x + s; h_used := 0 + (bsize x - (bsize x - N.of_nat (used x))); h_ptr := 0 + 32 |}) as (m3 & W & W1 & W2); [lia|].
      rewrite W. eexists. split; [reflexivity|].
      cbn [r_buf r_code r_ptr mkres set_circ set_mem sb_size sb_csz sb_mem]. split; [reflexivity|]. split; [reflexivity|].
      right. split; [reflexivity|].
      destruct (write_data_ok (sb_size b) m3 (0 + 32 + bsize x) d) as (m4 & D1 & D2 & D3); [fold s; lia|].
      exists (0 + 32 + bsize x), m4, (l ++ [(0, grow x d)]), (0 + fl (bsize x + s)).
      split; [reflexivity|]. split; [exact D1|]. split; [eauto|].
      assert (Hall : same_out (sb_mem b) m4 0 (fl (bsize x + s))).
      { intros y Hy. rewrite D3 by (fold s; lia). rewrite W2 by lia. rewrite M3 by (unfold bsize in *; lia). apply Hs. lia. }
      assert (Hcl : exists mid, chain h l mid /\ mid <= sb_size b).
      { rewrite <- El in Hhi. apply chain_app in Hhi. destruct Hhi as (mid & C1 & C2). exists mid. split; [exact C1|].
        now apply chain_le in C2. }
      destruct Hcl as (mid & Hc1 & Hmid).
      eapply (ring_relast b l a x t); eauto; cbn [set_circ set_mem sb_circ sb_tail sb_head sb_csz sb_size]; auto.
      * apply upd_same.
      * unfold tail_index in *. cbn [sb_tail sb_csz]. rewrite upd_other by (intros E2; apply Hneq; symmetry; exact E2). apply upd_same.
      * intros i H1 H2. rewrite upd_other by exact H1. now rewrite upd_other by exact H2.
      * apply Forall_snoc.
        -- apply owns_chain with (m := sb_mem b) (p := 0) (n := fl (bsize x + s)) (lo := h) (hi := mid); auto; lia.
        -- split; [|split].
           ++ rewrite bsize_grow. cbn [grow used]. fold s. rewrite (read_hdr_frame m3 m4 0) by (intros y Hy; apply D3; lia).
              rewrite W1. do 2 f_equal. unfold bsize in *. lia.
           ++ cbn [grow raw]. apply holds_app.
              ** apply holds_frame with m2; [|exact M2]. intros y Hy. unfold bsize in *. rewrite D3 by lia. apply W2. lia.
              ** exact D2.
           ++ cbn [grow raw used]. rewrite app_length. lia.
      * destruct l as [|[a0 x1] l0].
        -- cbn [app]. constructor; [|lia|discriminate]. cbn [chain]. rewrite bsize_grow. fold s. lia.
        -- cbn [app] in El. injection El as -> -> _. cbn [app]. apply lay_wrap.
           ++ now apply chain_hi with mid.
           ++ cbn [chain]. rewrite bsize_grow. fold s. lia.
           ++ lia.
    + (* the last block is the last of the low part *)
      clear IHlow0. rewrite app_comm_cons, app_assoc in El. apply app_inj_tail in El. destruct El as [El Ep]. subst pl.
      apply chain_app in Hlow. destruct Hlow as (mid & Hc1 & Hc2). cbn [chain] in Hc2. destruct Hc2 as [Hc2 Hc3].
      destruct (N.leb_spec h a) as [L2|L2]; [lia|].
      rewrite (buffer_offset_le t h) by lia.
      destruct (N.leb_spec (h - t) (pad s)) as [L3|L3]; [apply Hlim|].
      apply Hplace.
      * lia.
      * intros m2 Hm. rewrite El in Hol |- *. rewrite Forall_app in Hol. apply Forall_app. split.
        -- apply owns_chain with (m := sb_mem b) (p := a) (n := fl (bsize x + s)) (lo := h) (hi := sb_size b); auto; try lia; try apply Hol.
        -- apply owns_chain with (m := sb_mem b) (p := a) (n := fl (bsize x + s)) (lo := 0) (hi := mid); auto; try lia; try apply Hol.
      * rewrite El, <- app_assoc, <- app_comm_cons. apply lay_wrap; [exact Hhi| |lia].
        apply chain_app. exists mid. split; [exact Hc1|]. cbn [chain]. rewrite bsize_grow. fold s. lia.
Qed.
