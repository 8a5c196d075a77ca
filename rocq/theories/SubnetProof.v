From Verif Require Import Base VintProof Subnet SubnetSpec.
From Coq Require Import Sorting.Permutation.
Local Open Scope N_scope.
Ltac Zify.zify_post_hook ::= idtac.

(** A well-formed range: an aligned block of 2^mask ids. *)
Definition wf (r : range) : Prop :=
  g_mask r <= 30 /\ exists k, g_min r = k * 2 ^ g_mask r /\ g_max r = k * 2 ^ g_mask r + (2 ^ g_mask r - 1).

Lemma pow_pos b : 0 < 2 ^ b.
Proof. apply N.neq_0_lt_0, N.pow_nonzero. lia. Qed.

Lemma lor_ones_eq a b : N.lor a (2 ^ b - 1) = a / 2 ^ b * 2 ^ b + (2 ^ b - 1).
Proof.
  replace (2 ^ b - 1) with (N.ones b) by (rewrite N.ones_equiv; lia).
  rewrite <- (N.lor_ldiff_and a (N.ones b)) at 1.
  rewrite <- N.lor_assoc.
  replace (N.lor (N.land a (N.ones b)) (N.ones b)) with (N.ones b).
  2:{ apply N.bits_inj. intros i. rewrite N.lor_spec, N.land_spec. destruct (N.testbit a i), (N.testbit (N.ones b) i); reflexivity. }
  rewrite N.ldiff_ones_r. rewrite N.shiftl_mul_pow2, N.shiftr_div_pow2.
  rewrite <- N.lxor_lor, N.add_nocarry_lxor; [reflexivity| |].
  all: apply N.bits_inj; intros i; rewrite N.land_spec, N.bits_0;
    destruct (N.lt_ge_cases i b) as [H|H];
    [rewrite N.mul_pow2_bits_low by exact H; reflexivity|rewrite N.ones_spec_high by exact H; apply andb_false_r].
Qed.

Lemma mk_range_wf a b r : mk_range a b = Some r ->
  wf r /\ g_mask r = b /\ g_prefix r = a /\ g_min r = a / 2 ^ b * 2 ^ b /\ g_max r = a / 2 ^ b * 2 ^ b + (2 ^ b - 1).
Proof.
  unfold mk_range. destruct (N.leb_spec b 30) as [Hb|Hb]; [|discriminate].
  intros E. injection E as <-. cbn [g_min g_max g_mask g_prefix]. rewrite lor_ones_eq.
  assert (Hm : a / 2 ^ b * 2 ^ b + (2 ^ b - 1) - (2 ^ b - 1) = a / 2 ^ b * 2 ^ b) by apply N.add_sub.
  repeat split; auto. exists (a / 2 ^ b). cbn [g_min g_max g_mask]. rewrite Hm. auto.
Qed.

Lemma mk_range_some a b : b <= 30 -> exists r, mk_range a b = Some r.
Proof. intros H. unfold mk_range. destruct (N.leb_spec b 30); [eauto|lia]. Qed.

Lemma div_block id k b : id / 2 ^ b = k <-> k * 2 ^ b <= id <= k * 2 ^ b + (2 ^ b - 1).
Proof.
  pose proof (pow_pos b) as Hp. split.
  - intros <-. pose proof (N.mod_lt id (2 ^ b) ltac:(lia)) as Hm.
    pose proof (N.div_mod id (2 ^ b) ltac:(lia)) as Hd.
    rewrite N.mul_comm in Hd. lia.
  - intros [H1 H2]. symmetry. apply (N.div_unique id (2 ^ b) k (id - k * 2 ^ b)); [lia|]. rewrite N.mul_comm. lia.
Qed.

Lemma wf_in r : wf r -> exists k, forall id, in_iv (iv r) id <-> id / 2 ^ g_mask r = k.
Proof.
  intros [_ (k & H1 & H2)]. exists k. intros id. unfold in_iv, iv. cbn [fst snd]. rewrite H1, H2, div_block. reflexivity.
Qed.
Lemma wf_le r : wf r -> g_min r <= g_max r.
Proof. intros [_ (k & H1 & H2)]. pose proof (pow_pos (g_mask r)). lia. Qed.
Lemma wf_size r : wf r -> g_max r + 1 = g_min r + 2 ^ g_mask r.
Proof. intros [_ (k & H1 & H2)]. pose proof (pow_pos (g_mask r)). lia. Qed.

(** Two blocks are nested or disjoint. *)
Lemma div_coarser x y b c : b <= c -> x / 2 ^ b = y / 2 ^ b -> x / 2 ^ c = y / 2 ^ c.
Proof.
  intros H E. replace c with (b + (c - b)) by lia. rewrite N.pow_add_r.
  pose proof (pow_pos b). pose proof (pow_pos (c - b)).
  rewrite <- !N.div_div by lia. now rewrite E.
Qed.
Lemma laminar x y id : wf x -> wf y -> in_iv (iv x) id -> in_iv (iv y) id -> g_mask x <= g_mask y ->
  g_min y <= g_min x /\ g_max x <= g_max y.
Proof.
  intros Hx Hy Ix Iy Hm. destruct (wf_in x Hx) as [kx Kx]. destruct (wf_in y Hy) as [ky Ky].
  pose proof (wf_le x Hx) as Hlx.
  assert (H : forall i, in_iv (iv x) i -> in_iv (iv y) i).
  { intros i Hi. apply Ky. rewrite <- (proj1 (Ky id) Iy). apply div_coarser with (g_mask x); [exact Hm|].
    rewrite (proj1 (Kx i) Hi), (proj1 (Kx id) Ix). reflexivity. }
  assert (A : in_iv (iv y) (g_min x)) by (apply H; unfold in_iv, iv; cbn; lia).
  assert (B : in_iv (iv y) (g_max x)) by (apply H; unfold in_iv, iv; cbn; lia).
  unfold in_iv, iv in A, B. cbn in A, B. lia.
Qed.

(** C19 *)
Lemma range_contain_spec a b r id : mk_range a b = Some r ->
  contain_id r id = true <-> (id <> 0 /\ in_conf (a, b) id).
Proof.
  intros E. destruct (mk_range_wf _ _ _ E) as (_ & _ & _ & Hmin & Hmax).
  unfold contain_id, in_conf. cbn [fst snd]. rewrite div_block, Hmin, Hmax.
  destruct (N.eqb_spec id 0) as [->|Hn]; [split; [discriminate|tauto]|].
  rewrite andb_true_iff, !N.leb_le. tauto.
Qed.

Lemma conf_contain_spec c id : c_mask c <= 30 ->
  exists k, conf_contain c id = Some k /\ (k = true <-> (id <> 0 /\ in_conf (c_prefix c, c_mask c) id)).
Proof.
  intros H. unfold conf_contain. destruct (N.eqb_spec id 0) as [->|Hn]; [exists false; split; [reflexivity|split; [discriminate|tauto]]|].
  destruct (N.leb_spec (c_mask c) 30); [|lia]. eexists. split; [reflexivity|].
  rewrite N.eqb_eq, !lor_ones_eq. unfold in_conf. cbn [fst snd].
  pose proof (pow_pos (c_mask c)) as Hp. split.
  - intros E. split; [exact Hn|]. apply (N.mul_cancel_r _ _ (2 ^ c_mask c)); lia.
  - intros [_ E]. rewrite E. reflexivity.
Qed.

Lemma children_max_eq p m : children_max p m = p / 2 ^ m * 2 ^ m + (2 ^ m - 1).
Proof. apply lor_ones_eq. Qed.
Lemma children_min_eq p m : p < two64 -> m <= 63 -> children_min p m = p / 2 ^ m * 2 ^ m.
Proof.
  intros Hp Hm. unfold children_min.
  assert (Hpow : 2 ^ m <= 2 ^ 63) by (apply N.pow_le_mono_r; lia).
  assert (E : two64 - 1 - (2 ^ m - 1) = N.ldiff (N.ones 64) (N.ones m)).
  { rewrite N.ldiff_ones_r, N.shiftl_mul_pow2, N.shiftr_div_pow2.
    assert (Hd : N.ones 64 / 2 ^ m = 2 ^ (64 - m) - 1).
    { rewrite N.ones_equiv. symmetry. apply (N.div_unique _ _ _ (2 ^ m - 1)).
      - pose proof (pow_pos m). lia.
      - pose proof (pow_pos m). pose proof (pow_pos (64 - m)).
        assert (2 ^ 64 = 2 ^ m * 2 ^ (64 - m)) by (rewrite <- N.pow_add_r; f_equal; lia).
        rewrite N.mul_sub_distr_l. nia. }
    rewrite Hd. unfold two64. pose proof (pow_pos m). pose proof (pow_pos (64 - m)).
    assert (2 ^ 64 = 2 ^ (64 - m) * 2 ^ m) by (rewrite <- N.pow_add_r; f_equal; lia).
    rewrite N.mul_sub_distr_r. change 18446744073709551616 with (2 ^ 64). nia. }
  rewrite E.
  assert (E2 : N.land p (N.ldiff (N.ones 64) (N.ones m)) = N.ldiff p (N.ones m)).
  { apply N.bits_inj. intros i. rewrite N.land_spec, !N.ldiff_spec.
    destruct (N.lt_ge_cases i 64) as [H|H].
    - rewrite N.ones_spec_low by exact H. reflexivity.
    - assert (N.testbit p i = false) as ->; [|reflexivity].
      destruct (N.eq_dec p 0) as [->|Hne]; [apply N.bits_0|].
      apply N.bits_above_log2. apply N.lt_le_trans with 64; [|exact H]. apply N.log2_lt_pow2; [lia|exact Hp]. }
  rewrite E2, N.ldiff_ones_r, N.shiftl_mul_pow2, N.shiftr_div_pow2. reflexivity.
Qed.
Lemma static_is_child_spec parent prefix m id : parent < two64 -> prefix < two64 -> m <= 63 ->
  static_is_child parent prefix m id = true <->
  (id <> parent /\ in_conf (if prefix =? 0 then parent else prefix, m) id).
Proof.
  intros Hp Hq Hm. unfold static_is_child, in_conf. cbn [fst snd].
  set (p := if prefix =? 0 then parent else prefix).
  assert (Hpp : p < two64) by (unfold p; destruct (prefix =? 0); assumption).
  rewrite children_max_eq, children_min_eq by assumption. rewrite div_block.
  rewrite !andb_true_iff, negb_true_iff, N.eqb_neq, !N.leb_le. split; [intros [[H1 H2] H3]|intros [H1 [H2 H3]]]; repeat split; auto.
Qed.

(** Sorting *)
Lemma range_leb_spec x y : range_leb x y = true <-> (g_max x < g_max y \/ (g_max x = g_max y /\ g_min y <= g_min x)).
Proof.
  unfold range_leb, range_ltb. rewrite negb_true_iff.
  destruct (N.eqb_spec (g_max y) (g_max x)).
  - rewrite N.ltb_ge. lia.
  - rewrite N.ltb_ge. lia.
Qed.
Lemma range_leb_total x y : range_leb x y = false -> range_leb y x = true.
Proof.
  intros H. apply range_leb_spec. destruct (range_leb x y) eqn:E; [discriminate|].
  assert (~ (g_max x < g_max y \/ (g_max x = g_max y /\ g_min y <= g_min x))) by (rewrite <- range_leb_spec; congruence). lia.
Qed.
Lemma insert_perm x l : Permutation (x :: l) (insert_range x l).
Proof.
  induction l as [|y l IH]; [apply Permutation_refl|]. cbn. destruct (range_leb x y); [apply Permutation_refl|].
  rewrite perm_swap. now constructor.
Qed.
Lemma isort_perm l : Permutation l (isort l).
Proof. induction l as [|x l IH]; [constructor|]. cbn. rewrite <- insert_perm. now constructor. Qed.
Lemma insert_sorted x l : sorted l -> sorted (insert_range x l).
Proof.
  induction 1 as [|y l Hy Hs IH]; cbn; [repeat constructor|].
  destruct (range_leb x y) eqn:E.
  - constructor; [|now constructor]. constructor; [exact E|].
    eapply Forall_impl; [|exact Hy]. intros z Hz. cbn in Hz. rewrite range_leb_spec in *. lia.
  - constructor; [|exact IH].
    eapply Permutation_Forall; [apply insert_perm|]. constructor; [now apply range_leb_total|exact Hy].
Qed.
Lemma isort_sorted l : sorted (isort l).
Proof. induction l; [constructor|]. cbn. now apply insert_sorted. Qed.
Lemma merge_subnets_merges l out : merge_subnets l = Some out -> merges_to l out.
Proof. intros H. exists (isort l). split; [apply isort_perm|]. split; [apply isort_sorted|exact H]. Qed.

(** Merging *)
Definition rs_in (l : list range) (id : N) : Prop := exists r, In r l /\ g_min r <= id <= g_max r.
Definition sizes (l : list range) : N := fold_right (fun r n => 2 ^ g_mask r + n) 0 l.
Lemma sizes_cons r l : sizes (r :: l) = 2 ^ g_mask r + sizes l.
Proof. reflexivity. Qed.
Lemma rs_in_cons r l id : rs_in (r :: l) id <-> (g_min r <= id <= g_max r \/ rs_in l id).
Proof.
  unfold rs_in. split.
  - intros (x & [->|H] & Hi); [now left|right; eauto].
  - intros [H|(x & H & Hi)]; [exists r|exists x]; split; auto; [now left|now right].
Qed.

(** [settle] joins exact siblings only. *)
Lemma settle_ok rest : forall top, wf top -> Forall wf rest -> sizes (top :: rest) < 2 ^ 31 ->
  exists out, settle top rest = Some out /\ Forall wf out /\ sizes out = sizes (top :: rest) /\
    (forall id, rs_in out id <-> rs_in (top :: rest) id) /\
    (exists t o, out = t :: o /\ g_max t = g_max top).
Proof.
  induction rest as [|below rest IH]; intros top Ht Hr Hsz.
  - exists [top]. repeat split; auto. exists top, []. auto.
  - inversion_clear Hr as [|? ? Hb Hr']. cbn [settle].
    assert (Hsame : exists out, Some (top :: below :: rest) = Some out /\ Forall wf out /\ sizes out = sizes (top :: below :: rest) /\
      (forall id, rs_in out id <-> rs_in (top :: below :: rest) id) /\ (exists t o, out = t :: o /\ g_max t = g_max top)).
    { exists (top :: below :: rest). repeat split; auto. eauto. }
    destruct ((g_mask top =? g_mask below) && (g_min top =? wrap64 (g_max below + 1))) eqn:E1; [|exact Hsame].
    apply andb_prop in E1. destruct E1 as [E1 _]. apply N.eqb_eq in E1.
    rewrite !sizes_cons in Hsz. rewrite <- E1 in *.
    assert (Hm : g_mask top + 1 <= 30).
    { destruct (N.le_gt_cases (g_mask top + 1) 30) as [|C]; [assumption|exfalso].
      assert (2 ^ 30 <= 2 ^ g_mask top) by (apply N.pow_le_mono_r; lia). lia. }
    destruct (mk_range_some (g_min below) (g_mask top + 1) Hm) as [up Eu]. rewrite Eu.
    destruct (mk_range_wf _ _ _ Eu) as (Hu & Hum & _).
    destruct ((g_max up =? g_max top) && (g_min up =? g_min below)) eqn:E2; [|exact Hsame].
    apply andb_prop in E2. rewrite !N.eqb_eq in E2. destruct E2 as [E2 E3].
    pose proof (wf_size _ Hu) as Su. pose proof (wf_size _ Ht) as St. pose proof (wf_size _ Hb) as Sb.
    rewrite Hum in Su. rewrite <- E1 in Sb. rewrite N.pow_add_r in Su. change (2 ^ 1) with 2 in Su.
    destruct (IH up Hu Hr') as (out & Ho & Hw & Hs & Hid & t & o & -> & Hmax).
    { rewrite sizes_cons, Hum, N.pow_add_r. change (2 ^ 1) with 2. lia. }
    exists (t :: o). split; [exact Ho|]. split; [exact Hw|]. split.
    { rewrite Hs, !sizes_cons, Hum, <- E1, N.pow_add_r. change (2 ^ 1) with 2. lia. }
    split; [|exists t, o; split; [reflexivity|congruence]].
    intros id. rewrite Hid, !rs_in_cons. pose proof (pow_pos (g_mask top)) as Hpp.
    split; intros [H|H]; try tauto.
    + destruct (N.le_gt_cases id (g_max below)); [right; left; lia|left; lia].
    + left. lia.
    + destruct H as [H|H]; [left; lia|tauto].
Qed.

Lemma merge_all_ok l : forall top rest, wf top -> Forall wf rest -> Forall wf l -> sorted (top :: l) \/ (sorted l /\ Forall (fun x => g_max top <= g_max x) l) ->
  sizes (top :: rest) + sizes l < 2 ^ 31 ->
  exists out, merge_all (top :: rest) l = Some out /\ Forall wf out /\
    forall id, rs_in out id <-> (rs_in (top :: rest) id \/ rs_in l id).
Proof.
  induction l as [|x l IH]; intros top rest Ht Hr Hl Hs Hsz.
  - exists (rev (top :: rest)). split; [reflexivity|]. split; [apply Forall_rev; now constructor|].
    intros id. unfold rs_in. split.
    + intros (r & H & Hi). left. exists r. split; [apply in_rev; exact H|exact Hi].
    + intros [(r & H & Hi)|(r & [] & _)]. exists r. split; [apply -> in_rev; exact H|exact Hi].
  - assert (Hs' : sorted (x :: l) /\ Forall (fun x => g_max top <= g_max x) (x :: l)).
    { destruct Hs as [Hs|Hs]; [|exact Hs]. inversion Hs as [|? ? H1 H2]; subst. split; [exact H2|].
      eapply Forall_impl; [|exact H1]. intros y Hy. cbn in Hy. rewrite range_leb_spec in Hy. lia. }
    destruct Hs' as [Hsx Hmx]. clear Hs. inversion_clear Hl as [|? ? Hx Hl'].
    inversion_clear Hmx as [|? ? Hmx0 Hmx']. inversion Hsx as [|? ? Hfx Hsl]; subst.
    assert (Hnext : Forall (fun y => g_max x <= g_max y) l).
    { eapply Forall_impl; [|exact Hfx]. intros y Hy. cbn in Hy. rewrite range_leb_spec in Hy. lia. }
    cbn [merge_all merge_one]. rewrite !sizes_cons in Hsz.
    destruct (N.leb_spec (g_min x) (g_min top)) as [Hc|Hc].
    + destruct (settle_ok rest x Hx Hr) as (out1 & E1 & W1 & S1 & I1 & t1 & o1 & -> & M1); [rewrite sizes_cons; lia|].
      rewrite E1. inversion_clear W1 as [|? ? Wt Wo].
      destruct (IH t1 o1 Wt Wo Hl') as (out & E & W & I).
      * right. split; [exact Hsl|]. rewrite M1. exact Hnext.
      * rewrite S1. rewrite sizes_cons. lia.
      * exists out. split; [exact E|]. split; [exact W|]. intros id. rewrite I, I1, !rs_in_cons.
        split; [tauto|]. intros [[H|H]|H]; try tauto. left. left. lia.
    + destruct (settle_ok (top :: rest) x Hx ltac:(now constructor)) as (out1 & E1 & W1 & S1 & I1 & t1 & o1 & -> & M1); [rewrite !sizes_cons; lia|].
      rewrite E1. inversion_clear W1 as [|? ? Wt Wo].
      destruct (IH t1 o1 Wt Wo Hl') as (out & E & W & I).
      * right. split; [exact Hsl|]. rewrite M1. exact Hnext.
      * rewrite S1. rewrite !sizes_cons. lia.
      * exists out. split; [exact E|]. split; [exact W|]. intros id. rewrite I, I1, !rs_in_cons. tauto.
Qed.

Lemma sizes_perm l s : Permutation l s -> sizes l = sizes s.
Proof. induction 1; rewrite ?sizes_cons in *; try lia. Qed.
Lemma rs_in_perm l s id : Permutation l s -> rs_in l id <-> rs_in s id.
Proof.
  intros P. unfold rs_in. split; intros (r & H & Hi); exists r; split; auto;
  [eapply Permutation_in; eauto|eapply Permutation_in; [apply Permutation_sym|]; eauto].
Qed.

Lemma merge_sorted_ok s : Forall wf s -> sorted s -> sizes s < 2 ^ 31 ->
  exists out, merge_sorted s = Some out /\ Forall wf out /\ forall id, rs_in out id <-> rs_in s id.
Proof.
  intros W S Z. destruct s as [|x s].
  - exists []. repeat split; auto.
  - inversion_clear W as [|? ? Wx Ws]. cbn [merge_sorted]. rewrite sizes_cons in Z.
    destruct (merge_all_ok s x [] Wx ltac:(constructor) Ws) as (out & E & Wo & I).
    + left. exact S.
    + rewrite sizes_cons. cbn [sizes fold_right]. lia.
    + exists out. split; [exact E|]. split; [exact Wo|]. intros id. rewrite I, !rs_in_cons.
      assert (~ rs_in [] id) by (intros (? & [] & _)). tauto.
Qed.

(** The union is preserved even when nothing bounds the sizes, as long as the
    computation is defined. *)
Lemma settle_union rest : forall top out, wf top -> Forall wf rest -> settle top rest = Some out ->
  Forall wf out /\ (forall id, rs_in out id <-> rs_in (top :: rest) id) /\ (exists t o, out = t :: o /\ g_max t = g_max top).
Proof.
  induction rest as [|below rest IH]; intros top out Ht Hr E.
  - cbn in E. injection E as <-. repeat split; auto. eauto.
  - inversion_clear Hr as [|? ? Hb Hr']. cbn [settle] in E.
    assert (Hsame : Some (top :: below :: rest) = Some out -> Forall wf out /\
      (forall id, rs_in out id <-> rs_in (top :: below :: rest) id) /\ (exists t o, out = t :: o /\ g_max t = g_max top)).
    { intros H. injection H as <-. repeat split; auto. eauto. }
    destruct ((g_mask top =? g_mask below) && (g_min top =? wrap64 (g_max below + 1))) eqn:E1; [|auto].
    apply andb_prop in E1. destruct E1 as [E1 _]. apply N.eqb_eq in E1. rewrite <- E1 in *.
    destruct (mk_range (g_min below) (g_mask top + 1)) as [up|] eqn:Eu; [|discriminate].
    destruct (mk_range_wf _ _ _ Eu) as (Hu & Hum & _).
    destruct ((g_max up =? g_max top) && (g_min up =? g_min below)) eqn:E2; [|auto].
    apply andb_prop in E2. rewrite !N.eqb_eq in E2. destruct E2 as [E2 E3].
    pose proof (wf_size _ Hu) as Su. pose proof (wf_size _ Ht) as St. pose proof (wf_size _ Hb) as Sb.
    rewrite Hum in Su. rewrite <- E1 in Sb. rewrite N.pow_add_r in Su. change (2 ^ 1) with 2 in Su.
    destruct (IH up out Hu Hr' E) as (Hw & Hid & t & o & -> & Hmax).
    split; [exact Hw|]. split; [|exists t, o; split; [reflexivity|congruence]].
    intros id. rewrite Hid, !rs_in_cons. pose proof (pow_pos (g_mask top)) as Hpp.
    split; intros [H|H]; try tauto.
    + destruct (N.le_gt_cases id (g_max below)); [right; left; lia|left; lia].
    + left. lia.
    + destruct H as [H|H]; [left; lia|tauto].
Qed.

Lemma sorted_maxes top x l : sorted (x :: l) -> g_max top <= g_max x -> Forall (fun y => g_max top <= g_max y) (x :: l).
Proof.
  intros S H. inversion_clear S as [|? ? H1 H2]. constructor; [exact H|].
  eapply Forall_impl; [|exact H1]. intros y Hy. cbn in Hy. rewrite range_leb_spec in Hy. lia.
Qed.

Lemma merge_all_union l : forall top rest out, wf top -> Forall wf rest -> Forall wf l -> sorted l ->
  Forall (fun y => g_max top <= g_max y) l -> merge_all (top :: rest) l = Some out ->
  Forall wf out /\ forall id, rs_in out id <-> (rs_in (top :: rest) id \/ rs_in l id).
Proof.
  induction l as [|x l IH]; intros top rest out Ht Hr Hl Hs Hm E.
  - cbn in E. injection E as <-. change (rev rest ++ [top]) with (rev (top :: rest)). split; [apply Forall_rev; now constructor|].
    intros id. unfold rs_in. split.
    + intros (r & H & Hi). left. exists r. split; [apply in_rev; exact H|exact Hi].
    + intros [(r & H & Hi)|(r & [] & _)]. exists r. split; [apply -> in_rev; exact H|exact Hi].
  - inversion_clear Hl as [|? ? Hx Hl']. inversion_clear Hm as [|? ? Hmx _].
    pose proof (sorted_maxes x x l Hs ltac:(lia)) as Hnx. inversion_clear Hnx as [|? ? _ Hnext].
    inversion_clear Hs as [|? ? _ Hsl].
    cbn [merge_all merge_one] in E.
    destruct (N.leb_spec (g_min x) (g_min top)) as [Hc|Hc].
    + destruct (settle x rest) as [s|] eqn:Es; [|discriminate].
      destruct (settle_union _ _ _ Hx Hr Es) as (Ws & Is & t & o & -> & Mt). inversion_clear Ws as [|? ? Wt Wo].
      rewrite <- Mt in Hnext. destruct (IH t o out Wt Wo Hl' Hsl Hnext E) as [W I]. split; [exact W|].
      intros id. rewrite I, Is, !rs_in_cons. split; [tauto|]. intros [[H|H]|H]; try tauto. left. left. lia.
    + destruct (settle x (top :: rest)) as [s|] eqn:Es; [|discriminate].
      destruct (settle_union _ _ _ Hx ltac:(constructor; [exact Ht|exact Hr]) Es) as (Ws & Is & t & o & -> & Mt). inversion_clear Ws as [|? ? Wt Wo].
      rewrite <- Mt in Hnext. destruct (IH t o out Wt Wo Hl' Hsl Hnext E) as [W I]. split; [exact W|].
      intros id. rewrite I, Is, !rs_in_cons. tauto.
Qed.

Lemma merges_to_union l out : Forall wf l -> merges_to l out ->
  Forall wf out /\ forall id, rs_in out id <-> rs_in l id.
Proof.
  intros W (s & P & S & E).
  assert (Ws : Forall wf s) by (eapply Permutation_Forall; eauto).
  destruct s as [|x s]; cbn [merge_sorted] in E.
  - injection E as <-. split; [constructor|]. intros id. now rewrite (rs_in_perm l [] id P).
  - inversion_clear Ws as [|? ? Wx Ws']. pose proof (sorted_maxes x x s S ltac:(lia)) as Hm.
    inversion_clear Hm as [|? ? _ Hm']. inversion_clear S as [|? ? _ S'].
    destruct (merge_all_union s x [] out Wx ltac:(constructor) Ws' S' Hm' E) as [Wo I].
    split; [exact Wo|]. intros id. rewrite I, (rs_in_perm l _ id P), !rs_in_cons.
    assert (~ rs_in [] id) by (intros (? & [] & _)). tauto.
Qed.

(** Disjoint input: separated output. *)
Definition below_all (top : range) (l : list range) : Prop := Forall (fun y => g_max top < g_min y) l.
Inductive sep_desc : list range -> Prop :=
| sd_nil : sep_desc []
| sd_one x : sep_desc [x]
| sd_cons x y l : g_max y < g_min x -> sep_desc (y :: l) -> sep_desc (x :: y :: l).

Lemma settle_sep rest : forall top out, wf top -> Forall wf rest -> settle top rest = Some out ->
  sep_desc (top :: rest) -> sep_desc out.
Proof.
  induction rest as [|below rest IH]; intros top out Ht Hr E S.
  - cbn in E. injection E as <-. exact S.
  - inversion_clear Hr as [|? ? Hb Hr']. cbn [settle] in E.
    assert (Hsame : Some (top :: below :: rest) = Some out -> sep_desc out).
    { intros H. injection H as <-. exact S. }
    destruct ((g_mask top =? g_mask below) && (g_min top =? wrap64 (g_max below + 1))); [|auto].
    destruct (mk_range (g_min below) (g_mask below + 1)) as [up|] eqn:Eu; [|discriminate].
    destruct (mk_range_wf _ _ _ Eu) as (Hu & _).
    destruct ((g_max up =? g_max top) && (g_min up =? g_min below)) eqn:E2; [|auto].
    apply andb_prop in E2. rewrite !N.eqb_eq in E2. destruct E2 as [E2 E3].
    apply (IH up out Hu Hr' E). inversion S as [| |? ? ? H1 H2]; subst.
    inversion H2 as [| |? ? ? H3 H4]; subst; constructor; auto. lia.
Qed.

Lemma merge_all_sep l : forall top rest out, wf top -> Forall wf rest -> Forall wf l ->
  sep_desc (top :: rest) -> below_all top l -> ForallOrdPairs (fun x y => g_max x < g_min y) l ->
  merge_all (top :: rest) l = Some out -> sep_desc (rev out).
Proof.
  induction l as [|x l IH]; intros top rest out Ht Hr Hl Hs Hb Ho E.
  - cbn in E. injection E as <-. change (rev rest ++ [top]) with (rev (top :: rest)). rewrite rev_involutive. exact Hs.
  - inversion_clear Hl as [|? ? Hx Hl']. inversion_clear Hb as [|? ? Hbx Hb']. inversion_clear Ho as [|? ? Hox Ho'].
    cbn [merge_all merge_one] in E. pose proof (wf_le _ Ht) as Hle.
    destruct (N.leb_spec (g_min x) (g_min top)) as [Hc|Hc]; [lia|].
    destruct (settle x (top :: rest)) as [s|] eqn:Es; [|discriminate].
    destruct (settle_union _ _ _ Hx ltac:(constructor; [exact Ht|exact Hr]) Es) as (Ws & _ & t & o & -> & Mt).
    pose proof (settle_sep _ _ _ Hx ltac:(constructor; [exact Ht|exact Hr]) Es ltac:(now constructor)) as Hs'.
    inversion_clear Ws as [|? ? Wt Wo].
    apply (IH t o out Wt Wo Hl' Hs'); auto. unfold below_all. rewrite Mt. exact Hox.
Qed.

Lemma FOP_perm (R : range -> range -> Prop) l s : (forall x y, R x y -> R y x) ->
  Permutation l s -> ForallOrdPairs R l -> ForallOrdPairs R s.
Proof.
  intros Sym P. induction P; intros H.
  - constructor.
  - inversion_clear H. constructor; auto. eapply Permutation_Forall; eauto.
  - inversion_clear H as [|? ? H1 H2]. inversion_clear H2 as [|? ? H3 H4]. inversion_clear H1 as [|? ? H5 H6].
    constructor; [constructor; auto|constructor; auto].
  - auto.
Qed.

Lemma sorted_disjoint_sep s : Forall wf s -> sorted s -> ForallOrdPairs (fun x y => iv_disjoint (iv x) (iv y)) s ->
  ForallOrdPairs (fun x y => g_max x < g_min y) s.
Proof.
  intros W S D. induction S as [|x s Hx Hs IH]; [constructor|].
  inversion_clear W as [|? ? Wx Ws]. inversion_clear D as [|? ? Dx Ds]. constructor; [|auto].
  rewrite Forall_forall in *. intros y Hy. specialize (Hx y Hy). specialize (Dx y Hy).
  rewrite range_leb_spec in Hx. pose proof (wf_le _ Wx). pose proof (wf_le _ (Ws y Hy)).
  destruct (N.lt_ge_cases (g_max x) (g_min y)) as [|C]; [assumption|exfalso].
  apply (Dx (g_max x)); unfold in_iv, iv; cbn; lia.
Qed.

Lemma sep_desc_all x l : Forall wf (x :: l) -> sep_desc (x :: l) -> Forall (fun y => g_max y < g_min x) l.
Proof.
  revert x. induction l as [|y l IH]; intros x W S; [constructor|].
  inversion_clear W as [|? ? Wx Wyl]. inversion_clear S as [| |? ? ? H1 H2].
  constructor; [exact H1|]. pose proof (IH y Wyl H2) as H3. inversion_clear Wyl as [|? ? Wy _].
  pose proof (wf_le _ Wy). eapply Forall_impl; [|exact H3]. intros z Hz. cbn in Hz. lia.
Qed.

Lemma FOP_app {A} (R : A -> A -> Prop) l1 : forall l2, ForallOrdPairs R l1 -> ForallOrdPairs R l2 ->
  (forall x y, In x l1 -> In y l2 -> R x y) -> ForallOrdPairs R (l1 ++ l2).
Proof.
  induction l1 as [|x l1 IH]; intros l2 H1 H2 H; [exact H2|]. inversion_clear H1 as [|? ? Hx Hl]. cbn. constructor.
  - rewrite Forall_app. split; [exact Hx|]. rewrite Forall_forall. intros y Hy. apply H; [now left|exact Hy].
  - apply IH; auto. intros a b Ha Hb. apply H; [now right|exact Hb].
Qed.

Lemma sep_desc_rev l : Forall wf l -> sep_desc l -> ForallOrdPairs (fun x y => g_max x < g_min y) (rev l).
Proof.
  induction l as [|x l IH]; intros W S; [constructor|].
  pose proof (sep_desc_all x l W S) as H. inversion_clear W as [|? ? Wx Wl].
  assert (sep_desc l) by (inversion S; subst; [constructor|assumption]).
  cbn. apply FOP_app; [auto|repeat constructor|]. intros a b Ha [<-|[]].
  rewrite Forall_forall in H. apply H. now apply in_rev.
Qed.

Lemma merges_to_separated l out : Forall wf l -> merges_to l out ->
  ForallOrdPairs (fun x y => iv_disjoint (iv x) (iv y)) l ->
  ForallOrdPairs (fun x y => g_max x < g_min y) out.
Proof.
  intros W M D. destruct (merges_to_union l out W M) as [Wo _].
  destruct M as (s & P & S & E).
  assert (Ws : Forall wf s) by (eapply Permutation_Forall; eauto).
  assert (Ds : ForallOrdPairs (fun x y => g_max x < g_min y) s).
  { apply sorted_disjoint_sep; auto. apply FOP_perm with l; auto. intros x y H id Hx Hy. exact (H id Hy Hx). }
  destruct s as [|x s]; cbn [merge_sorted] in E; [injection E as <-; constructor|].
  inversion_clear Ws as [|? ? Wx Ws']. inversion_clear Ds as [|? ? Dx Ds'].
  pose proof (merge_all_sep s x [] out Wx ltac:(constructor) Ws' ltac:(constructor) Dx Ds' E) as H.
  apply sep_desc_rev in H; [|now apply Forall_rev]. now rewrite rev_involutive in H.
Qed.

Lemma merges_to_defined l : Forall wf l -> sizes l < 2 ^ 31 -> forall s, Permutation l s -> sorted s -> merge_sorted s <> None.
Proof.
  intros W Z s P S E. destruct (merge_sorted_ok s) as (out & E' & _); auto.
  - eapply Permutation_Forall; eauto.
  - now rewrite <- (sizes_perm l s P).
  - congruence.
Qed.

(** Every remaining range is one of the inputs or was built by the constructor. *)
Definition made (r : range) : Prop := mk_range (g_prefix r) (g_mask r) = Some r.
Lemma mk_range_made a b r : mk_range a b = Some r -> made r.
Proof. intros E. unfold made. destruct (mk_range_wf _ _ _ E) as (_ & -> & -> & _). exact E. Qed.
Lemma made_wf r : made r -> wf r.
Proof. intros E. apply (mk_range_wf _ _ _ E). Qed.
Lemma settle_made rest : forall top out, made top -> Forall made rest -> settle top rest = Some out ->
  Forall made out /\ (length out <= S (length rest))%nat.
Proof.
  induction rest as [|below rest IH]; intros top out Ht Hr E.
  - cbn in E. injection E as <-. split; [repeat constructor; exact Ht|cbn; lia].
  - inversion_clear Hr as [|? ? Hb Hr']. cbn [settle] in E.
    assert (Hsame : Some (top :: below :: rest) = Some out -> Forall made out /\ (length out <= S (length (below :: rest)))%nat).
    { intros H. injection H as <-. split; [repeat constructor; auto|cbn; lia]. }
    destruct ((g_mask top =? g_mask below) && (g_min top =? wrap64 (g_max below + 1))); [|auto].
    destruct (mk_range (g_min below) (g_mask below + 1)) as [up|] eqn:Eu; [|discriminate].
    destruct ((g_max up =? g_max top) && (g_min up =? g_min below)); [|auto].
    destruct (IH up out (mk_range_made _ _ _ Eu) Hr' E) as [A B]. split; [exact A|cbn [length]; lia].
Qed.
Lemma merge_all_made l : forall stack out, Forall made stack -> Forall made l -> merge_all stack l = Some out ->
  Forall made out /\ (length out <= length stack + length l)%nat.
Proof.
  induction l as [|x l IH]; intros stack out Hs Hl E.
  - cbn in E. injection E as <-. split; [now apply Forall_rev|rewrite rev_length; cbn; lia].
  - inversion_clear Hl as [|? ? Hx Hl']. cbn [merge_all] in E.
    destruct (merge_one stack x) as [s|] eqn:M; [|discriminate].
    assert (H : Forall made s /\ (length s <= S (length stack))%nat).
    { destruct stack as [|top rest]; cbn [merge_one] in M.
      - injection M as <-. split; [repeat constructor; exact Hx|cbn; lia].
      - inversion_clear Hs as [|? ? Ht Hr]. destruct (g_min x <=? g_min top).
        + apply settle_made in M; auto. cbn [length]. destruct M. split; [assumption|lia].
        + apply settle_made in M; auto. }
    destruct H as [H1 H2]. destruct (IH s out H1 Hl' E) as [A B]. split; [exact A|cbn [length]; lia].
Qed.
Lemma merges_to_made l out : Forall made l -> merges_to l out -> Forall made out /\ (length out <= length l)%nat.
Proof.
  intros Hl (s & P & S & E). rewrite (Permutation_length P).
  assert (Hs : Forall made s) by (eapply Permutation_Forall; eauto).
  destruct s as [|x s]; cbn [merge_sorted] in E; [injection E as <-; auto|].
  inversion_clear Hs as [|? ? Hx Hs']. apply (merge_all_made s [x] out); auto.
Qed.

(** Upper ends come out in ascending order. *)
Inductive desc_max : list range -> Prop :=
| dm_nil : desc_max []
| dm_cons x l : Forall (fun y => g_max y <= g_max x) l -> desc_max l -> desc_max (x :: l).
Lemma settle_desc rest : forall top out, settle top rest = Some out -> desc_max (top :: rest) ->
  desc_max out /\ forall m, Forall (fun y => g_max y <= m) (top :: rest) -> Forall (fun y => g_max y <= m) out.
Proof.
  induction rest as [|below rest IH]; intros top out E D.
  - cbn in E. injection E as <-. auto.
  - cbn [settle] in E.
    destruct ((g_mask top =? g_mask below) && (g_min top =? wrap64 (g_max below + 1))); [|injection E as <-; auto].
    destruct (mk_range (g_min below) (g_mask below + 1)) as [up|] eqn:Eu; [|discriminate].
    destruct ((g_max up =? g_max top) && (g_min up =? g_min below)) eqn:E2; [|injection E as <-; auto].
    apply andb_prop in E2. rewrite !N.eqb_eq in E2. destruct E2 as [E2 _].
    inversion_clear D as [|? ? D1 D2]. inversion_clear D1 as [|? ? _ D3]. inversion_clear D2 as [|? ? _ D5].
    destruct (IH up out E) as [A B]; [constructor; [rewrite E2; exact D3|exact D5]|].
    split; [exact A|]. intros m F. inversion_clear F as [|? ? F1 F2]. inversion_clear F2 as [|? ? _ F3].
    apply B. constructor; [rewrite E2; exact F1|exact F3].
Qed.
Lemma merge_all_desc l : forall stack out, desc_max stack ->
  (forall x y, In x stack -> In y l -> g_max x <= g_max y) -> sorted l -> merge_all stack l = Some out -> desc_max (rev out).
Proof.
  induction l as [|x l IH]; intros stack out D B S E.
  - cbn in E. injection E as <-. now rewrite rev_involutive.
  - cbn [merge_all] in E. destruct (merge_one stack x) as [s|] eqn:M; [|discriminate].
    pose proof (sorted_maxes x x l S ltac:(lia)) as Hx. rewrite Forall_forall in Hx.
    assert (Bx : Forall (fun y => g_max y <= g_max x) stack).
    { rewrite Forall_forall. intros y Hy. apply B; [exact Hy|now left]. }
    assert (H : desc_max s /\ Forall (fun y => g_max y <= g_max x) s).
    { destruct stack as [|top rest]; cbn [merge_one] in M.
      - injection M as <-. split; [repeat constructor|repeat constructor; lia].
      - inversion_clear Bx as [|? ? B1 B2]. inversion_clear D as [|? ? D1 D2]. destruct (g_min x <=? g_min top).
        + destruct (settle_desc rest x s M) as [A C]; [now constructor|]. split; [exact A|]. apply C. constructor; [lia|exact B2].
        + destruct (settle_desc (top :: rest) x s M) as [A C]; [constructor; [now constructor|now constructor]|].
          split; [exact A|]. apply C. constructor; [lia|now constructor]. }
    destruct H as [H1 H2]. apply (IH s out H1); auto.
    + intros a b Ha Hb. rewrite Forall_forall in H2. specialize (H2 a Ha). specialize (Hx b (or_intror Hb)). lia.
    + now inversion S.
Qed.
Lemma merges_to_ascending l out : merges_to l out -> ForallOrdPairs (fun x y => g_max x <= g_max y) out.
Proof.
  intros (s & P & S & E).
  assert (D : desc_max (rev out)).
  { destruct s as [|x s]; cbn [merge_sorted] in E; [injection E as <-; constructor|].
    apply (merge_all_desc s [x] out); auto.
    - repeat constructor.
    - intros a b [<-|[]] Hb. pose proof (sorted_maxes x x s S ltac:(lia)) as Hx. rewrite Forall_forall in Hx. apply Hx. now right.
    - now inversion S. }
  rewrite <- (rev_involutive out). clear -D. induction D as [|x l F D IH]; [constructor|]. cbn.
  apply FOP_app; [exact IH|repeat constructor|]. intros a b Ha [<-|[]]. rewrite Forall_forall in F. apply F. now apply in_rev.
Qed.

(** C22 *)
Lemma subnets_contain_unfold ps cs :
  subnets_contain ps cs = forallb (fun c => existsb (fun p => contain_id p (g_min c) && contain_id p (g_max c)) ps) cs.
Proof. destruct ps, cs; reflexivity. Qed.
Lemma subnets_contain_conf_unfold ps cs :
  subnets_contain_conf ps cs = forallb (fun c => existsb (fun p => contain_id p (c_prefix c) && (c_mask c <=? g_mask p)) ps) cs.
Proof. destruct ps, cs; reflexivity. Qed.
Lemma contain_id_iff r id : contain_id r id = true <-> (id <> 0 /\ g_min r <= id <= g_max r).
Proof.
  unfold contain_id. destruct (N.eqb_spec id 0); [split; [discriminate|tauto]|].
  rewrite andb_true_iff, !N.leb_le. lia.
Qed.

Lemma subnets_contain_sound ps cs : Forall wf cs -> subnets_contain ps cs = true ->
  forall c, In c cs -> g_min c <> 0 /\ exists p, In p ps /\ forall id, in_iv (iv c) id -> in_iv (iv p) id.
Proof.
  intros W H c Hc. rewrite subnets_contain_unfold, forallb_forall in H. specialize (H c Hc).
  apply existsb_exists in H. destruct H as (p & Hp & H). apply andb_prop in H. rewrite !contain_id_iff in H.
  split; [tauto|]. exists p. split; [exact Hp|]. unfold in_iv, iv. cbn. lia.
Qed.
Lemma subnets_contain_complete ps cs : Forall wf cs -> 
  (forall c, In c cs -> g_min c <> 0 /\ exists p, In p ps /\ forall id, in_iv (iv c) id -> in_iv (iv p) id) ->
  subnets_contain ps cs = true.
Proof.
  intros W H. rewrite subnets_contain_unfold, forallb_forall. intros c Hc. rewrite Forall_forall in W.
  pose proof (wf_le _ (W c Hc)) as Hle. destruct (H c Hc) as (Hz & p & Hp & Hi).
  apply existsb_exists. exists p. split; [exact Hp|]. rewrite andb_true_iff, !contain_id_iff.
  pose proof (Hi (g_min c)) as A. pose proof (Hi (g_max c)) as B. unfold in_iv, iv in A, B. cbn in A, B. lia.
Qed.

Lemma wf_in_conf p x : wf p -> in_iv (iv p) x -> forall id, in_iv (iv p) id <-> in_conf (x, g_mask p) id.
Proof.
  intros W Hx id. destruct (wf_in p W) as (k & K). unfold in_conf. cbn [fst snd].
  rewrite (K id), (proj1 (K x) Hx). reflexivity.
Qed.
Lemma conf_contain_iff ps cs : Forall wf ps -> Forall (fun c => c_prefix c <> 0) cs ->
  (subnets_contain_conf ps cs = true <->
   forall c, In c cs -> exists p, In p ps /\ forall id, in_conf (c_prefix c, c_mask c) id -> in_iv (iv p) id).
Proof.
  intros W Z. rewrite subnets_contain_conf_unfold, forallb_forall. rewrite Forall_forall in W, Z. split.
  - intros H c Hc. specialize (H c Hc). apply existsb_exists in H. destruct H as (p & Hp & H). apply andb_prop in H.
    rewrite contain_id_iff, N.leb_le in H. destruct H as [[_ H1] H2]. exists p. split; [exact Hp|].
    intros id Hid. apply (wf_in_conf p (c_prefix c) (W p Hp)); [exact H1|]. unfold in_conf in *. cbn [fst snd] in *.
    now apply div_coarser with (c_mask c).
  - intros H c Hc. destruct (H c Hc) as (p & Hp & Hi). apply existsb_exists. exists p. split; [exact Hp|].
    assert (Hpre : in_iv (iv p) (c_prefix c)) by (apply Hi; reflexivity).
    rewrite andb_true_iff, contain_id_iff, N.leb_le. split; [split; [now apply Z|exact Hpre]|].
    set (m := c_mask c) in *. set (k := c_prefix c / 2 ^ m).
    pose proof (pow_pos m) as Hm.
    assert (A : in_iv (iv p) (k * 2 ^ m)) by (apply Hi; unfold in_conf; cbn [fst snd]; fold k; apply div_block; lia).
    assert (B : in_iv (iv p) (k * 2 ^ m + (2 ^ m - 1))) by (apply Hi; unfold in_conf; cbn [fst snd]; fold k; apply div_block; lia).
    unfold in_iv, iv in A, B. cbn [fst snd] in A, B. pose proof (wf_size _ (W p Hp)) as Sz.
    apply (N.pow_le_mono_r_iff 2); lia.
Qed.
