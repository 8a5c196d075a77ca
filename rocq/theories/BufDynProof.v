From Verif Require Import Base BufferSpec Buffer.
Local Open Scope N_scope.

Definition abs_d (b : dblock) : blk := {| raw := d_bytes b; used := N.to_nat (d_used b) |}.
Definition wf_d (b : dblock) : Prop := d_size b = N.of_nat (length (d_bytes b)) /\ d_used b <= d_size b.

(** Bytes and blocks held: bounded by what was ever pushed. *)
Definition held (q : list blk) : N := fold_right (fun b n => N.of_nat (length (raw b)) + 1 + n) 0 q.

Definition inv_d (ln ls W : N) (m : dmgr) : Prop :=
  Forall wf_d (d_list m) /\
  cost_number (d_lim m) = N.of_nat (length (d_list m)) /\
  cost_size (d_lim m) = total_unread (map abs_d (d_list m)) /\
  limit_number (d_lim m) = ln /\ limit_size (d_lim m) = ls /\
  held (map abs_d (d_list m)) <= W.

Lemma total_cons x q : total_unread (x :: q) = unread x + total_unread q.
Proof. reflexivity. Qed.
Lemma held_cons x q : held (x :: q) = N.of_nat (length (raw x)) + 1 + held q.
Proof. reflexivity. Qed.
Lemma total_app a b : total_unread (a ++ b) = total_unread a + total_unread b.
Proof. induction a as [|x a IH]; [reflexivity|]. cbn [app]. rewrite !total_cons, IH. lia. Qed.
Lemma held_app a b : held (a ++ b) = held a + held b.
Proof. induction a as [|x a IH]; [reflexivity|]. cbn [app]. rewrite !held_cons, IH. lia. Qed.
Lemma total_le_held q : total_unread q <= held q.
Proof. induction q as [|x q IH]; [cbn; lia|]. rewrite total_cons, held_cons. unfold unread. lia. Qed.
Lemma length_le_held q : N.of_nat (length q) <= held q.
Proof. induction q as [|x q IH]; [cbn; lia|]. rewrite held_cons. cbn [length]. lia. Qed.

Lemma last_split_snoc {A} (l : list A) x : last_split (l ++ [x]) = Some (l, x).
Proof. unfold last_split. rewrite rev_app_distr. cbn. now rewrite rev_involutive. Qed.
Lemma last_split_nil {A} : @last_split A [] = None.
Proof. reflexivity. Qed.
Lemma list_cases_snoc {A} (l : list A) : l = [] \/ exists r x, l = r ++ [x].
Proof. destruct l as [|x l] using rev_ind; [left; reflexivity|right; eauto]. Qed.

Lemma wrap_half n : n < 2 ^ 63 -> wrap64 n = n.
Proof. intros H. apply wrap64_small. unfold two64. lia. Qed.
Lemma wrap_lt n : n < 2 ^ 64 -> wrap64 n = n.
Proof. intros H. apply wrap64_small. exact H. Qed.

Lemma number_blocked_abs ln ls W m : inv_d ln ls W m ->
  number_blocked (d_lim m) = over_number ln (map abs_d (d_list m)).
Proof.
  intros (_ & Hn & _ & Hln & _). unfold number_blocked, over_number. now rewrite Hn, Hln, map_length.
Qed.

Lemma size_blocked_abs ln ls W m d : inv_d ln ls W m -> W + N.of_nat (length d) < 2 ^ 63 ->
  size_blocked (d_lim m) (N.of_nat (length d)) = over_size ls (map abs_d (d_list m)) d.
Proof.
  intros (_ & _ & Hs & _ & Hls & Hh) Hw. unfold size_blocked, over_size. rewrite Hs, Hls.
  pose proof (total_le_held (map abs_d (d_list m))).
  now rewrite wrap_half by lia.
Qed.

Lemma unread_abs b : wf_d b -> unread (abs_d b) = d_left b.
Proof. intros [H1 H2]. unfold unread, abs_d, d_left. cbn. lia. Qed.

Lemma d_pop_block_ok b s fr : wf_d b -> N.of_nat (length (d_bytes b)) < 2 ^ 63 ->
  exists k, d_pop_block b s fr = (N.min s (d_left b), k) /\
    map abs_d (match k with None => [] | Some b' => [b'] end) = pop_blk s fr (abs_d b) /\
    match k with
    | None => d_left b = N.min s (d_left b)
    | Some b' => wf_d b' /\ d_left b' = d_left b - N.min s (d_left b) /\ d_bytes b' = d_bytes b
    end.
Proof.
  intros Hwf Hb. pose proof Hwf as [H1 H2]. unfold d_pop_block.
  replace (if d_left b <? s then d_left b else s) with (N.min s (d_left b)) by (destruct (N.ltb_spec (d_left b) s); lia).
  set (s' := N.min s (d_left b)).
  assert (Hs' : s' <= d_size b - d_used b) by (unfold s', d_left; lia).
  assert (Hp : d_pop b s' = {| d_size := d_size b; d_used := d_used b + s'; d_bytes := d_bytes b |}).
  { unfold d_pop. rewrite wrap_half by lia. destruct (N.ltb_spec (d_size b) (d_used b + s')); [lia|reflexivity]. }
  rewrite Hp. unfold pop_blk. rewrite unread_abs by exact Hwf. fold s'.
  assert (Hu : unread {| raw := raw (abs_d b); used := used (abs_d b) + N.to_nat s' |} = d_size b - (d_used b + s')).
  { unfold unread, abs_d. cbn. lia. }
  rewrite Hu.
  change (d_left {| d_size := d_size b; d_used := d_used b + s'; d_bytes := d_bytes b |}) with (d_size b - (d_used b + s')).
  replace (d_size b - (d_used b + s') <=? 0) with (d_size b - (d_used b + s') =? 0)
    by (destruct (N.eqb_spec (d_size b - (d_used b + s')) 0), (N.leb_spec (d_size b - (d_used b + s')) 0); lia).
  destruct (fr && (d_size b - (d_used b + s') =? 0)) eqn:E; eexists; (split; [reflexivity|]).
  - split; [reflexivity|]. apply andb_prop in E. unfold d_left in *. lia.
  - split; [|split; [|split]].
    + cbn. unfold abs_d. cbn. do 2 f_equal. lia.
    + split; cbn; lia.
    + unfold d_left. cbn. lia.
    + reflexivity.
Qed.

Lemma drop_one_pos l : 0 < cost_number l -> cost_number (drop_one l) = cost_number l - 1.
Proof. intros H. unfold drop_one. cbn. destruct (N.ltb_spec 0 (cost_number l)); lia. Qed.

(** After removing/shrinking one block of a non-empty list. *)
Lemma fix_limit_ok l l1 q (e : bool) (s : N) ln ls :
  limit_number l = ln -> limit_size l = ls ->
  l1 = l \/ l1 = drop_one l ->
  cost_number l1 = N.of_nat (length q) ->
  cost_size l = total_unread q + s ->
  (e = true <-> q = []) ->
  let l2 := fix_limit e l1 s in
  cost_number l2 = N.of_nat (length q) /\ cost_size l2 = total_unread q /\
  limit_number l2 = ln /\ limit_size l2 = ls.
Proof.
  intros Hln Hls Hl1 Hn Hs He. cbv zeta. unfold fix_limit. destruct e.
  - destruct He as [He _]. rewrite (He eq_refl). cbn.
    destruct Hl1 as [->| ->]; cbn; auto.
  - cbn. rewrite Hn.
    assert (cost_size l1 = cost_size l) as -> by (destruct Hl1 as [->| ->]; reflexivity).
    destruct (N.leb_spec s (cost_size l)); [|lia].
    destruct Hl1 as [->| ->]; cbn; repeat split; auto; lia.
Qed.

Definition match_nil {A} (l : list A) : bool := match l with [] => true | _ => false end.
Lemma match_nil_iff {A B} (l : list A) (f : A -> B) : match_nil l = true <-> map f l = [].
Proof. destruct l; cbn; split; congruence. Qed.

Lemma d_merge_block_ok ok b d b' : wf_d b -> N.of_nat (length (d_bytes b)) + N.of_nat (length d) < 2 ^ 63 ->
  d_merge_block ok b d = Some b' ->
  wf_d b' /\ abs_d b' = {| raw := raw (abs_d b) ++ d; used := used (abs_d b) |}.
Proof.
  intros [H1 H2] Hb H. unfold d_merge_block in H. destruct d as [|x d].
  - inversion H; subst b'. split; [split; assumption|]. cbn. now rewrite app_nil_r.
  - unfold d_malloc in H. destruct ok; [|discriminate]. cbn [d_bytes] in H.
    remember (x :: d) as d0 eqn:Ed. injection H as H. subst b'.
    unfold d_pop, d_left. cbn [d_size d_used d_bytes].
    assert (E : wrap64 (N.of_nat (length d0) + d_size b) = N.of_nat (length d0) + d_size b)
      by (apply wrap_half; lia).
    rewrite E, wrap_half by lia.
    destruct (N.ltb_spec (N.of_nat (length d0) + d_size b) (0 + (d_size b - (d_size b - d_used b)))); [lia|].
    split; [split|].
    + cbn [d_size d_bytes]. rewrite app_length. lia.
    + cbn [d_used d_size]. lia.
    + unfold abs_d. cbn [d_bytes d_used raw used]. f_equal. lia.
Qed.

(** One step: the specification, or a failed allocation that changes nothing. *)
Lemma d_step_ok ln ls W ok m o : inv_d ln ls W m -> W + op_size o + 1 < 2 ^ 63 ->
  exists out m', d_step ok m o = (out, m') /\ inv_d ln ls (W + op_size o + 1) m' /\
    ((out, map abs_d (d_list m')) = spec_step ln ls (map abs_d (d_list m)) o \/
     (ok = false /\ is_push o = true /\ out = Code MALLOC /\ m' = m)).
Proof.
  intros Hinv Hw.
  assert (Hweak : inv_d ln ls (W + op_size o + 1) m).
  { destruct Hinv as (A & B & C & D & E & F). repeat split; auto. lia. }
  pose proof (number_blocked_abs _ _ _ _ Hinv) as Hnb.
  assert (Hsb : forall d, op_size o = N.of_nat (length d) ->
     size_blocked (d_lim m) (N.of_nat (length d)) = over_size ls (map abs_d (d_list m)) d).
  { intros d Hd. apply (size_blocked_abs ln ls W); [exact Hinv|]. lia. }
  pose proof Hinv as (Hwf & Hcn & Hcs & Hln & Hls & Hh).
  pose proof (total_le_held (map abs_d (d_list m))) as Htl.
  pose proof (length_le_held (map abs_d (d_list m))) as Hll. rewrite map_length in Hll.
  (* push, on either side *)
  assert (Hpush : forall d, op_size o = N.of_nat (length d) -> forall l',
     (forall b, abs_d b = {| raw := d; used := 0 |} -> wf_d b ->
        Forall wf_d (l' b) /\ length (l' b) = S (length (d_list m)) /\
        total_unread (map abs_d (l' b)) = total_unread (map abs_d (d_list m)) + N.of_nat (length d) /\
        held (map abs_d (l' b)) = held (map abs_d (d_list m)) + N.of_nat (length d) + 1) ->
     let b := {| d_size := N.of_nat (length d); d_used := 0; d_bytes := d |} in
     inv_d ln ls (W + op_size o + 1) {| d_list := l' b; d_lim := charge (d_lim m) (N.of_nat (length d)) |}).
  { intros d Hd l' Hl. cbv zeta.
    destruct (Hl {| d_size := N.of_nat (length d); d_used := 0; d_bytes := d |}) as (A & B & C & D).
    - reflexivity.
    - split; cbn; lia.
    - repeat split; cbn [d_list d_lim charge cost_number cost_size limit_number limit_size]; auto.
      + rewrite B, Hcn, wrap_half; lia.
      + rewrite C, Hcs, wrap_half; lia.
      + rewrite D. lia. }
  destruct o as [d|d|d|d|s fr|s fr| |]; cbn [d_step op_size is_push] in *.
  - (* PushBack *)
    unfold d_push_back. rewrite Hnb, (Hsb d eq_refl). cbn [spec_step].
    destruct (over_number ln (map abs_d (d_list m))); [eexists _, _; repeat split; try apply Hweak; left; reflexivity|].
    destruct (over_size ls (map abs_d (d_list m)) d); [eexists _, _; repeat split; try apply Hweak; left; reflexivity|].
    destruct ok; cbn [d_malloc].
    + eexists _, _. split; [reflexivity|]. split.
      * apply (Hpush d eq_refl (fun b => d_list m ++ [b])). intros b Eb Hb.
        rewrite Forall_app, app_length, map_app, total_app, held_app. cbn [map length]. rewrite total_cons, held_cons, Eb. unfold unread. cbn [raw used total_unread held fold_right].
        repeat split; auto; lia.
      * left. cbn. rewrite map_app. reflexivity.
    + eexists _, _. split; [reflexivity|]. split; [exact Hweak|]. right. auto.
  - (* PushFront *)
    unfold d_push_front. rewrite Hnb, (Hsb d eq_refl). cbn [spec_step].
    destruct (over_number ln (map abs_d (d_list m))); [eexists _, _; repeat split; try apply Hweak; left; reflexivity|].
    destruct (over_size ls (map abs_d (d_list m)) d); [eexists _, _; repeat split; try apply Hweak; left; reflexivity|].
    destruct ok; cbn [d_malloc].
    + eexists _, _. split; [reflexivity|]. split.
      * apply (Hpush d eq_refl (fun b => b :: d_list m)). intros b Eb Hb. cbn [map length].
        rewrite total_cons, held_cons, Eb. unfold unread. cbn [raw used].
        repeat split; auto; lia.
      * left. reflexivity.
    + eexists _, _. split; [reflexivity|]. split; [exact Hweak|]. right. auto.
  - (* MergeBack *)
    unfold d_merge_back.
    destruct (list_cases_snoc (d_list m)) as [E|(r & b & E)].
    + rewrite E. rewrite last_split_nil. unfold d_push_back. rewrite Hnb, (Hsb d eq_refl).
      cbn [spec_step]. rewrite E. cbn [map last_split rev].
      destruct (over_number ln []); [eexists _, _; repeat split; try apply Hweak; left; rewrite E; reflexivity|].
      destruct (over_size ls [] d); [eexists _, _; repeat split; try apply Hweak; left; rewrite E; reflexivity|].
      destruct ok; cbn [d_malloc].
      * eexists _, _. split; [reflexivity|]. split.
        -- apply (Hpush d eq_refl (fun b => [b])). intros b Eb Hb. rewrite E. cbn [map length app]. rewrite total_cons, held_cons, Eb. unfold unread. cbn [raw used total_unread held fold_right].
           repeat split; auto; lia.
        -- left. reflexivity.
      * eexists _, _. split; [reflexivity|]. split; [exact Hweak|]. right. auto.
    + rewrite E, last_split_snoc, (Hsb d eq_refl). cbn [spec_step]. rewrite E, map_app. cbn [map].
      rewrite last_split_snoc.
      destruct (over_size ls (map abs_d r ++ [abs_d b]) d);
        [eexists _, _; split; [reflexivity|]; split; [exact Hweak|]; left; rewrite E, map_app; reflexivity|].
      rewrite E, Forall_app in Hwf. destruct Hwf as [Hwr Hwb]. inversion_clear Hwb as [|? ? Hb _].
      rewrite E, map_app, held_app in Hh. cbn [map] in Hh. rewrite held_cons in Hh. cbn [raw abs_d] in Hh.
      destruct (d_merge_block ok b d) as [b'|] eqn:Em.
      * destruct (d_merge_block_ok ok b d b' Hb ltac:(lia) Em) as [Hb' Ea].
        eexists _, _. split; [reflexivity|]. split.
        -- rewrite E, map_app, total_app in Hcs. cbn [map] in Hcs. rewrite total_cons in Hcs.
           rewrite E, app_length in Hcn. cbn [length] in Hcn.
           rewrite E, map_app, total_app in Htl. cbn [map] in Htl. rewrite total_cons in Htl.
           rewrite held_app, held_cons in Htl. cbn [raw abs_d] in Htl.
           unfold inv_d. cbn [d_list d_lim charge_size cost_number cost_size limit_number limit_size].
           rewrite Forall_app, app_length, map_app, total_app, held_app. cbn [map length].
           rewrite total_cons, held_cons, Ea.
           unfold unread in *. cbn [raw used abs_d total_unread held fold_right] in *. rewrite app_length.
           destruct Hb as [Hb1 Hb2].
           repeat split; auto; rewrite ?wrap_half; lia.
        -- left. cbn. rewrite map_app. cbn. now rewrite Ea.
      * eexists _, _. split; [reflexivity|]. split; [exact Hweak|]. right.
        destruct ok; [|auto]. unfold d_merge_block in Em. destruct d; discriminate.
  - (* MergeFront *)
    unfold d_merge_front.
    destruct (d_list m) as [|b r] eqn:E.
    + unfold d_push_front. rewrite Hnb, (Hsb d eq_refl).
      cbn [spec_step map]. rewrite E.
      destruct (over_number ln []); [eexists _, _; repeat split; try apply Hweak; left; rewrite E; reflexivity|].
      cbn [map].
      destruct (over_size ls [] d); [eexists _, _; repeat split; try apply Hweak; left; rewrite E; reflexivity|].
      destruct ok; cbn [d_malloc].
      * eexists _, _. split; [reflexivity|]. split.
        -- apply (Hpush d eq_refl (fun b => [b])). intros b Eb Hb. cbn [map length app]. rewrite total_cons, held_cons, Eb. unfold unread. cbn [raw used total_unread held fold_right].
           repeat split; auto; lia.
        -- left. reflexivity.
      * eexists _, _. split; [reflexivity|]. split; [exact Hweak|]. right. auto.
    + rewrite (Hsb d eq_refl). cbn [spec_step map].
      destruct (over_size ls (abs_d b :: map abs_d r) d);
        [eexists _, _; split; [reflexivity|]; split; [exact Hweak|]; left; rewrite E; reflexivity|].
      inversion_clear Hwf as [|? ? Hb Hwr].
      cbn [map] in Hh, Hcs, Htl. rewrite held_cons in Hh. cbn [raw abs_d] in Hh.
      destruct (d_merge_block ok b d) as [b'|] eqn:Em.
      * destruct (d_merge_block_ok ok b d b' Hb ltac:(lia) Em) as [Hb' Ea].
        eexists _, _. split; [reflexivity|]. split.
        -- rewrite total_cons in Hcs. rewrite total_cons, held_cons in Htl. cbn [raw abs_d] in Htl.
           cbn [length] in Hcn.
           unfold inv_d. cbn [d_list d_lim charge_size cost_number cost_size limit_number limit_size map length].
           rewrite total_cons, held_cons, Ea.
           unfold unread in *. cbn [raw used abs_d] in *. rewrite app_length.
           destruct Hb as [Hb1 Hb2].
           repeat split; auto; rewrite ?wrap_half; lia.
        -- left. cbn. now rewrite Ea.
      * eexists _, _. split; [reflexivity|]. split; [exact Hweak|]. right.
        destruct ok; [|auto]. unfold d_merge_block in Em. destruct d; discriminate.
  - (* PopBack *)
    unfold d_pop_back. cbn [spec_step].
    destruct (list_cases_snoc (d_list m)) as [E|(r & b & E)].
    + rewrite E. cbn. eexists _, _. split; [reflexivity|]. split; [exact Hweak|]. left. rewrite E. reflexivity.
    + rewrite E, map_app. cbn [map]. rewrite !last_split_snoc.
      rewrite E, Forall_app in Hwf. destruct Hwf as [Hwr Hwb]. inversion_clear Hwb as [|? ? Hb _].
      rewrite E, map_app, held_app in Hh. cbn [map] in Hh. rewrite held_cons in Hh. cbn [raw abs_d] in Hh.
      rewrite E, map_app, total_app in Hcs. cbn [map] in Hcs. rewrite total_cons in Hcs.
      rewrite E, app_length in Hcn. cbn [length] in Hcn. cbn [held total_unread fold_right] in Hh, Hcs.
      destruct (d_pop_block_ok b s fr Hb ltac:(lia)) as (k & -> & Hk1 & Hk2).
      eexists _, _. split; [reflexivity|].
      assert (Hq : map abs_d (match k with None => r | Some b' => r ++ [b'] end)
                   = map abs_d r ++ pop_blk s fr (abs_d b)).
      { destruct k; rewrite <- Hk1; [rewrite map_app; reflexivity|cbn; now rewrite app_nil_r]. }
      split; [|left; cbn [d_list]; now rewrite Hq].
      rewrite unread_abs in Hcs by exact Hb.
      destruct k as [b'|].
      * destruct Hk2 as (Hb' & Hl & Hby).
        edestruct (fix_limit_ok (d_lim m) (d_lim m) (map abs_d (r ++ [b'])) (match_nil (r ++ [b'])) (N.min s (d_left b)) ln ls) as (A & B & C & D); auto.
        -- rewrite map_length, app_length. cbn. lia.
        -- rewrite map_app, total_app. cbn [map]. rewrite total_cons, unread_abs by exact Hb'. cbn [total_unread fold_right]. lia.
        -- apply match_nil_iff.
        -- rewrite map_length in A. unfold inv_d. cbn [d_list d_lim]. unfold match_nil in A, B, C, D.
           repeat split; auto.
           ++ apply Forall_app. auto.
           ++ rewrite map_app, held_app. cbn [map]. rewrite held_cons. cbn [raw abs_d held fold_right]. rewrite Hby. lia.
      * edestruct (fix_limit_ok (d_lim m) (drop_one (d_lim m)) (map abs_d r) (match_nil r) (N.min s (d_left b)) ln ls) as (A & B & C & D); auto.
        -- rewrite drop_one_pos, map_length; lia.
        -- lia.
        -- apply match_nil_iff.
        -- rewrite map_length in A. unfold inv_d. cbn [d_list d_lim]. unfold match_nil in A, B, C, D.
           repeat split; auto. lia.
  - (* PopFront *)
    unfold d_pop_front. cbn [spec_step].
    destruct (d_list m) as [|b r] eqn:E.
    + cbn. eexists _, _. split; [reflexivity|]. split; [exact Hweak|]. left. rewrite E. reflexivity.
    + cbn [map] in *. inversion_clear Hwf as [|? ? Hb Hwr].
      rewrite held_cons in Hh. cbn [raw abs_d] in Hh. rewrite total_cons in Hcs. cbn [length] in Hcn.
      destruct (d_pop_block_ok b s fr Hb ltac:(lia)) as (k & -> & Hk1 & Hk2).
      eexists _, _. split; [reflexivity|].
      assert (Hq : map abs_d (match k with None => r | Some b' => b' :: r end)
                   = pop_blk s fr (abs_d b) ++ map abs_d r).
      { destruct k; rewrite <- Hk1; reflexivity. }
      split; [|left; cbn [d_list]; now rewrite Hq].
      rewrite unread_abs in Hcs by exact Hb.
      destruct k as [b'|].
      * destruct Hk2 as (Hb' & Hl & Hby).
        edestruct (fix_limit_ok (d_lim m) (d_lim m) (map abs_d (b' :: r)) (match_nil (b' :: r)) (N.min s (d_left b)) ln ls) as (A & B & C & D); auto.
        -- rewrite map_length. cbn [length]. lia.
        -- cbn [map]. rewrite total_cons, unread_abs by exact Hb'. lia.
        -- apply match_nil_iff.
        -- rewrite map_length in A. unfold inv_d. cbn [d_list d_lim]. unfold match_nil in A, B, C, D.
           repeat split; auto.
           cbn [map]. rewrite held_cons. cbn [raw abs_d]. rewrite Hby. lia.
      * edestruct (fix_limit_ok (d_lim m) (drop_one (d_lim m)) (map abs_d r) (match_nil r) (N.min s (d_left b)) ln ls) as (A & B & C & D); auto.
        -- rewrite drop_one_pos, map_length; lia.
        -- lia.
        -- apply match_nil_iff.
        -- rewrite map_length in A. unfold inv_d. cbn [d_list d_lim]. unfold match_nil in A, B, C, D.
           repeat split; auto. lia.
  - (* Front *)
    eexists _, _. split; [reflexivity|]. split; [exact Hweak|]. left. cbn [spec_step].
    destruct (d_list m) as [|b r] eqn:E; [reflexivity|].
    cbn [map]. inversion_clear Hwf as [|? ? [H1 H2] _]. unfold d_view, visible, abs_d, d_left. cbn.
    do 4 f_equal. lia.
  - (* Back *)
    eexists _, _. split; [reflexivity|]. split; [exact Hweak|]. left. cbn [spec_step].
    destruct (list_cases_snoc (d_list m)) as [E|(r & b & E)]; rewrite E; [reflexivity|].
    rewrite map_app. cbn [map]. rewrite !last_split_snoc.
    rewrite E, Forall_app in Hwf. destruct Hwf as [_ Hwb]. inversion_clear Hwb as [|? ? [H1 H2] _].
    unfold d_view, visible, abs_d, d_left. cbn.
    do 4 f_equal. lia.
Qed.
