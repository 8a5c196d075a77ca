(** C19-C22, C48: subnets. *)
From Verif Require Import Base Subnet SubnetSpec SubnetProof RouteProof.
From Coq Require Import Sorting.Permutation.
Local Open Scope N_scope.

(** C19: for every mask the code can build a range for (at most 30 bits) the range
    contains exactly the non-zero ids that agree with the prefix above the mask, its
    bounds are the least and the greatest of them, and the static test on a
    configuration entry answers the same. *)
Theorem C19_range_semantics : forall prefix mask, mask <= 30 ->
  exists r, mk_range prefix mask = Some r /\
    (forall id, contain_id r id = true <-> (id <> 0 /\ in_conf (prefix, mask) id)) /\
    (forall id, in_iv (iv r) id <-> in_conf (prefix, mask) id) /\
    in_conf (prefix, mask) (g_min r) /\ in_conf (prefix, mask) (g_max r) /\
    forall id, exists k, conf_contain {| c_prefix := prefix; c_mask := mask |} id = Some k /\
                         (k = true <-> (id <> 0 /\ in_conf (prefix, mask) id)).
Proof.
  intros a b Hb. destruct (mk_range_some a b Hb) as [r E]. exists r. split; [exact E|].
  destruct (mk_range_wf _ _ _ E) as (W & Hm & Hp & _). pose proof (wf_le _ W) as Hle.
  assert (H : forall id, in_iv (iv r) id <-> in_conf (a, b) id).
  { rewrite <- Hm, <- Hp. apply made_conf. eapply mk_range_made; eauto. }
  split; [intros id; now apply range_contain_spec|]. split; [exact H|].
  split; [apply H; unfold in_iv, iv; cbn; lia|]. split; [apply H; unfold in_iv, iv; cbn; lia|].
  intros id. apply (conf_contain_spec {| c_prefix := a; c_mask := b |} id Hb).
Qed.
Print Assumptions C19_range_semantics.
Example C19_case : exists r, mk_range 0x12345 8 = Some r /\ g_min r = 0x12300 /\ g_max r = 0x123ff /\ contain_id r 0x12301 = true /\ contain_id r 0x12401 = false.
Proof. eexists. repeat split. Qed.

(** C19: the static child test (64-bit shifts, masks up to 63). *)
Theorem C19_static_is_child : forall parent prefix mask id, parent < two64 -> prefix < two64 -> mask <= 63 ->
  static_is_child parent prefix mask id = true <->
  (id <> parent /\ in_conf (if prefix =? 0 then parent else prefix, mask) id).
Proof. exact static_is_child_spec. Qed.
Print Assumptions C19_static_is_child.
Example C19_static_case : static_is_child 0x100 0 8 0x1ff = true /\ static_is_child 0x100 0 8 0x100 = false /\ static_is_child 0x100 0 8 0x200 = false.
Proof. vm_compute. auto. Qed.

(** C19 is false for the whole range of configurable masks: from 31 bits on the
    constructor shifts an [int] too far (undefined behaviour). *)
Theorem C19_wide_mask_refuted : exists prefix mask, mask < 64 /\ mk_range prefix mask = None.
Proof. exists 1, 31. vm_compute. auto. Qed.

(** C20: every way [std::sort] may order the list, the merged list covers exactly
    the same ids, is not longer, and is ordered by its upper ends. *)
Theorem C20_merge_same_ids : forall confs l out,
  Forall2 (fun c r => mk_range (fst c) (snd c) = Some r) confs l ->
  merges_to l out ->
  (forall id, in_ivs (map iv out) id <-> exists c, In c confs /\ in_conf c id) /\
  (length out <= length confs)%nat /\
  ForallOrdPairs (fun x y => g_max x <= g_max y) out.
Proof.
  intros cs l out F M.
  assert (Hm : Forall made l) by (clear M; induction F; constructor; auto; eapply mk_range_made; eauto).
  assert (Hw : Forall wf l) by (eapply Forall_impl; [|exact Hm]; exact made_wf).
  destruct (merges_to_union l out Hw M) as [_ U]. destruct (merges_to_made l out Hm M) as [_ L].
  split; [|split; [assert (length l = length cs) as <- by (clear -F; induction F; cbn; congruence); exact L|exact (merges_to_ascending l out M)]].
  intros id. rewrite <- rs_in_ivs, U. clear -F. induction F as [|[a b] r cs l E F IH].
  - split; [intros (? & [] & _)|intros (? & [] & _)].
  - cbn [fst snd] in E. rewrite rs_in_cons, IH. destruct (mk_range_wf _ _ _ E) as (_ & Hm & Hp & _).
    pose proof (made_conf r (mk_range_made _ _ _ E) id) as K. rewrite Hm, Hp in K. unfold in_iv, iv in K. cbn [fst snd] in K. rewrite K. split.
    + intros [H|(c & H1 & H2)]; [exists (a, b); split; [now left|exact H]|exists c; split; [now right|exact H2]].
    + intros (c & [<-|H1] & H2); [now left|right; eauto].
Qed.
Print Assumptions C20_merge_same_ids.

(** C20: the merge is defined (no undefined shift) whenever the subnets together
    hold fewer than 2^31 ids, for every order [std::sort] may produce. *)
Theorem C20_merge_defined : forall l s, Forall wf l -> sizes l < 2 ^ 31 -> Permutation l s -> sorted s ->
  exists out, merge_sorted s = Some out.
Proof.
  intros l s W Z P S. destruct (merge_sorted s) eqn:E; [eauto|]. exfalso. exact (merges_to_defined l W Z s P S E).
Qed.
Print Assumptions C20_merge_defined.
Example C20_case : exists a b c out, mk_range 0x100 8 = Some a /\ mk_range 0x203 0 = Some b /\ mk_range 0x202 0 = Some c /\
  merge_subnets [b; a; c] = Some out /\ map iv out = [(0x100, 0x1ff); (0x202, 0x203)].
Proof. repeat eexists. Qed.

(** Beyond that size two sibling subnets of 30 bits run into the undefined shift. *)
Theorem C20_merge_undefined_refuted : exists a b, mk_range (2 ^ 31) 30 = Some a /\ mk_range (2 ^ 31 + 2 ^ 30) 30 = Some b /\
  merge_subnets [a; b] = None.
Proof. eexists. eexists. split; [reflexivity|]. split; [reflexivity|]. vm_compute. reflexivity. Qed.

(** C20: the subnets of a created endpoint cover exactly its own id and the
    configured blocks (a prefix of 0 stands for the own id). *)
Theorem C20_endpoint_ids : forall id confs l, id <> 0 -> endpoint_subnets id confs = Some l ->
  forall i, in_ivs (map iv l) i <->
    (i = id \/ exists c, In c confs /\ in_conf (if c_prefix c =? 0 then id else c_prefix c, c_mask c) i).
Proof. intros id cs l Hid E i. rewrite <- rs_in_ivs. apply (endpoint_subnets_spec id cs l Hid E). Qed.
Print Assumptions C20_endpoint_ids.
Example C20_endpoint_case : exists l, endpoint_subnets 0x12345 [{| c_prefix := 0; c_mask := 8 |}; {| c_prefix := 0x20000; c_mask := 16 |}] = Some l /\
  map iv l = [(0x12300, 0x123ff); (0x20000, 0x2ffff)].
Proof. eexists. split; vm_compute; reflexivity. Qed.

(** C21 is false in general: a block that covers two non-adjacent smaller ones
    leaves one of them behind, and a repeated block survives next to the merged one. *)
Theorem C21_merged_disjoint_refuted : exists confs l out,
  Forall2 (fun c r => mk_range (fst c) (snd c) = Some r) confs l /\ merge_subnets l = Some out /\
  ~ pairwise_disjoint (map iv out).
Proof.
  exists [(0x15, 0); (0x17, 0); (0x10, 3)]. eexists. eexists. split; [repeat constructor|]. split; [vm_compute; reflexivity|].
  cbn. intros H. inversion_clear H as [|? ? H1 H2]. inversion_clear H1 as [|? ? H3 H4]. apply (H3 0x15); unfold in_iv; cbn; lia.
Qed.
Theorem C21_duplicate_refuted : exists confs l out,
  Forall2 (fun c r => mk_range (fst c) (snd c) = Some r) confs l /\ merge_subnets l = Some out /\
  ~ pairwise_disjoint (map iv out).
Proof.
  exists [(2, 0); (3, 0); (3, 0)]. eexists. eexists. split; [repeat constructor|]. split; [vm_compute; reflexivity|].
  cbn. intros H. inversion_clear H as [|? ? H1 H2]. inversion_clear H1 as [|? ? H3 H4]. apply (H3 3); unfold in_iv; cbn; lia.
Qed.

(** C21, for subnets that do not overlap to begin with: none overlap afterwards.
    Missing: nested or repeated input, where the claim is false (above). *)
Theorem C21_merged_disjoint_partial : forall confs l out,
  Forall2 (fun c r => mk_range (fst c) (snd c) = Some r) confs l -> merges_to l out ->
  pairwise_disjoint (map iv l) -> pairwise_disjoint (map iv out).
Proof.
  intros cs l out F M D.
  assert (Hw : Forall wf l) by (clear -F; induction F as [|c r cs l E F IH]; constructor; auto; apply (mk_range_wf _ _ _ E)).
  apply (proj1 (FOP_map iv iv_disjoint _)) in D. apply (proj2 (FOP_map iv iv_disjoint _)). pose proof (merges_to_separated l out Hw M D) as S.
  destruct (merges_to_union l out Hw M) as [Wo _].
  eapply FOP_impl; [|exact Wo|exact S]. intros x y _ _ H z. cbv beta in H. unfold in_iv, iv. cbn [fst snd]. lia.
Qed.
Print Assumptions C21_merged_disjoint_partial.
Example C21_case : exists a b c out, mk_range 0x10 3 = Some a /\ mk_range 0x18 3 = Some b /\ mk_range 0x30 0 = Some c /\
  merge_subnets [c; b; a] = Some out /\ map iv out = [(0x10, 0x1f); (0x30, 0x30)].
Proof. repeat eexists. Qed.

(** C22: the containment test between range lists answers true exactly when each
    child range lies inside one parent range and no child range starts at id 0. *)
Theorem C22_contain_ranges : forall parents children, Forall wf children ->
  subnets_contain parents children = true <->
  (forall c, In c children -> g_min c <> 0 /\ exists p, In p parents /\ forall id, in_iv (iv c) id -> in_iv (iv p) id).
Proof. intros ps cs W. split; [exact (subnets_contain_sound ps cs W)|exact (subnets_contain_complete ps cs W)]. Qed.
Print Assumptions C22_contain_ranges.

(** The test on announced (prefix, mask) pairs: exact for non-zero prefixes. *)
Theorem C22_contain_confs : forall parents children, Forall wf parents -> Forall (fun c => c_prefix c <> 0) children ->
  subnets_contain_conf parents children = true <->
  (forall c, In c children -> exists p, In p parents /\ forall id, in_conf (c_prefix c, c_mask c) id -> in_iv (iv p) id).
Proof. exact conf_contain_iff. Qed.
Print Assumptions C22_contain_confs.

(** The test on a single id. *)
Theorem C22_contain_id : forall parents id,
  subnets_contain_id parents id = true <-> (id <> 0 /\ in_ivs (map iv parents) id).
Proof.
  intros ps id. rewrite <- rs_in_ivs. unfold subnets_contain_id, rs_in.
  assert (H : (if id =? 0 then false else existsb (fun p => contain_id p id) ps) = true <-> (id <> 0 /\ exists r, In r ps /\ g_min r <= id <= g_max r)).
  { destruct (N.eqb_spec id 0); [split; [discriminate|tauto]|]. rewrite existsb_exists. split.
    - intros (r & Hr & H). rewrite contain_id_iff in H. split; [assumption|exists r; tauto].
    - intros (_ & r & Hr & H). exists r. split; [exact Hr|]. rewrite contain_id_iff. tauto. }
  destruct ps as [|p ps]; [|exact H]. split; [discriminate|]. intros (_ & r & [] & _).
Qed.
Print Assumptions C22_contain_id.

(** C22: whenever the registration of a child passes the test, every id served by
    the endpoint built for it is an id of the parent. *)
Theorem C22_child_within_parent : forall self id confs l, Forall wf self -> id <> 0 ->
  child_accepted self id confs = Some true -> peer_subnets id confs = Some l ->
  forall i, in_ivs (map iv l) i -> in_ivs (map iv self) i.
Proof. intros self id cs l W Hid A P i. rewrite <- !rs_in_ivs. apply (child_within self id cs l W Hid A P). Qed.
Print Assumptions C22_child_within_parent.
Example C22_case : exists self l, endpoint_subnets 0x10000 [{| c_prefix := 0; c_mask := 16 |}] = Some self /\
  child_accepted self 0x10100 [{| c_prefix := 0x10100; c_mask := 8 |}] = Some true /\
  peer_subnets 0x10100 [{| c_prefix := 0x10100; c_mask := 8 |}] = Some l /\ map iv l = [(0x10100, 0x101ff)].
Proof. eexists. eexists. split; [vm_compute; reflexivity|]. split; [vm_compute; reflexivity|]. split; vm_compute; reflexivity. Qed.

(** A range that starts at id 0 does not even contain itself. *)
Theorem C22_zero_refuted : exists r, mk_range 5 4 = Some r /\ subnets_contain [r] [r] = false.
Proof. eexists. split; vm_compute; reflexivity. Qed.

(** C48: the endpoint a peer builds from the announced subnets serves the same ids
    as the announcing node, provided no merged subnet has prefix 0. *)
Theorem C48_announced_subnets_partial : forall id confs l l', id <> 0 ->
  endpoint_subnets id confs = Some l -> Forall (fun r => g_prefix r <> 0) l ->
  peer_subnets id (announce l) = Some l' ->
  forall i, in_ivs (map iv l') i <-> in_ivs (map iv l) i.
Proof. intros id cs l l' Hid E Z P i. rewrite <- !rs_in_ivs. exact (peer_same_set id cs l l' Hid E Z P i). Qed.
Print Assumptions C48_announced_subnets_partial.
Example C48_case : exists l l', endpoint_subnets 0x12345 [{| c_prefix := 0; c_mask := 8 |}; {| c_prefix := 0x20000; c_mask := 16 |}] = Some l /\
  Forall (fun r => g_prefix r <> 0) l /\ peer_subnets 0x12345 (announce l) = Some l' /\ map iv l' = map iv l.
Proof.
  eexists. eexists. split; [vm_compute; reflexivity|]. split; [repeat constructor; vm_compute; discriminate|]. split; vm_compute; reflexivity.
Qed.

(** Missing above: a merged subnet with prefix 0 is read by the peer as "around the
    own id": ids 1..3 are lost and ids 0x101..0x103 are claimed instead. *)
Theorem C48_announced_subnets_refuted : exists id confs l l', id <> 0 /\
  endpoint_subnets id confs = Some l /\ peer_subnets id (announce l) = Some l' /\
  in_ivs (map iv l) 2 /\ ~ in_ivs (map iv l') 2 /\ in_ivs (map iv l') 0x102 /\ ~ in_ivs (map iv l) 0x102.
Proof.
  exists 0x100, [{| c_prefix := 1; c_mask := 1 |}; {| c_prefix := 2; c_mask := 1 |}]. eexists. eexists.
  split; [discriminate|]. split; [vm_compute; reflexivity|]. split; [vm_compute; reflexivity|]. cbn [map iv g_min g_max]. unfold in_ivs, in_iv.
  repeat split.
  - eexists. split; [now left|]. cbn. lia.
  - intros (i & [<-|[]] & H); cbn in H; lia.
  - eexists. split; [now left|]. cbn. lia.
  - intros (i & [<-|[<-|[]]] & H); cbn in H; lia.
Qed.
