(** C23, C24: the routing table. *)
From Verif Require Import Base Subnet SubnetSpec SubnetProof Route RouteProof.
Local Open Scope N_scope.

(** C23, C24: for every history of registrations, removals and lookups on an
    initially empty table, if every registered endpoint has non-overlapping subnets
    that do not start at id 0 and serves its own id, then every answer is the one of
    the table of live endpoints [table_run]: a registration is refused exactly when
    it overlaps a live endpoint, a removal succeeds exactly when that endpoint is
    live, a lookup finds the live endpoint that serves the id.  The table keeps
    exactly the subnets of the live endpoints and they never overlap. *)
Theorem C23_C24_routing_table : forall ops,
  Forall (fun o => match o with RIns e => well_configured e | _ => True end) ops ->
  exists live, Forall well_configured live /\
    map abs_out (fst (route_run [] ops)) = fst (table_run [] (map abs_op ops)) /\
    snd (table_run [] (map abs_op ops)) = map abs live /\
    (forall r e, In (r, e) (snd (route_run [] ops)) <-> (In e live /\ In r (e_subs e))) /\
    pairwise_disjoint (map (fun x => iv (fst x)) (snd (route_run [] ops))).
Proof.
  intros ops F. destruct (sim_run ops [] [] sim_empty) as (live & A & B & C).
  { eapply Forall_impl; [|exact F]. intros [e| |]; cbn; auto. apply well_configured_good. }
  exists live. destruct C as [G S I L]. split.
  { eapply Forall_impl; [|exact L]. intros e (L1 & L2 & L3). split; [exact L1|]. split.
    - apply (proj2 (FOP_map iv iv_disjoint _)). eapply FOP_impl; [|exact L1|exact L2]. intros x y Hx Hy H. now apply apart_disjoint.
    - apply rs_in_ivs. exact L3. }
  split; [exact A|]. split; [exact B|]. split; [exact I|].
  apply (proj2 (FOP_map (fun x : range * ep => iv (fst x)) iv_disjoint _)). eapply FOP_impl; [|exact G|exact S]. intros x y _ _ H z. cbv beta in H. unfold in_iv, iv. cbn [fst snd]. lia.
Qed.
Print Assumptions C23_C24_routing_table.

(** The endpoints built by [endpoint::create] from non-overlapping configured blocks
    that avoid id 0 satisfy the hypothesis. *)
Theorem C23_created_endpoints : forall ref id confs l, id <> 0 -> endpoint_subnets id confs = Some l ->
  (forall l0, endpoint_ranges id confs = Some l0 -> pairwise_disjoint (map iv l0) /\ Forall (fun r => 0 < g_min r) l0) ->
  well_configured {| e_ref := ref; e_id := id; e_subs := l |}.
Proof. exact create_well_configured. Qed.
Print Assumptions C23_created_endpoints.

(** C23: the conflict test itself is exact on such tables. *)
Theorem C23_conflict_exact : forall c rs, cgood c -> csep c -> Forall good rs ->
  check_conflicts c rs = true <-> exists r x id, In r rs /\ In x c /\ in_iv (iv r) id /\ in_iv (iv (fst x)) id.
Proof.
  intros c rs G S F. pose proof (check_conflicts_exact c rs G S F) as H.
  unfold cgood in G. rewrite Forall_forall in F, G. split.
  - intros E. apply existsb_exists in E. destruct E as (r & Hr & E).
    assert (X : exists x, In x c /\ ~ apart (fst x) r).
    { assert (N : ~ Forall (fun x => apart (fst x) r) c).
      { intros A. rewrite Forall_forall in A. apply (check_conflict_exact c r) in A; [congruence|unfold cgood; now rewrite Forall_forall|exact S|now apply F]. }
      apply Exists_exists. apply neg_Forall_Exists_neg; [|exact N]. intros x.
      unfold apart. destruct (g_max (fst x) <? g_min r) eqn:E1, (g_max r <? g_min (fst x)) eqn:E2; (left; lia) || (right; lia). }
    destruct X as (x & Hx & A). specialize (F r Hr). specialize (G x Hx). unfold good in *. unfold apart in A.
    exists r, x, (N.max (g_min r) (g_min (fst x))). repeat split; auto; unfold in_iv, iv; cbn; lia.
  - intros (r & x & id & Hr & Hx & A & B). destruct (check_conflicts c rs) eqn:E; [reflexivity|].
    pose proof (proj1 H eq_refl r x Hr Hx) as K. unfold apart, in_iv, iv in *. cbn in *. lia.
Qed.
Print Assumptions C23_conflict_exact.

Definition ex_ep (ref id : N) (cs : list sconf) : ep :=
  {| e_ref := ref; e_id := id; e_subs := match endpoint_subnets id cs with Some l => l | None => [] end |}.
Definition exA := ex_ep 1 0x10001 [{| c_prefix := 0; c_mask := 8 |}; {| c_prefix := 0x20000; c_mask := 16 |}].
Definition exB := ex_ep 2 0x10101 [{| c_prefix := 0; c_mask := 8 |}].
Definition exC := ex_ep 3 0x20105 [].
Example C23_case : forall e, In e [exA; exB; exC] -> well_configured e.
Proof.
  assert (K : forall ref id cs l l0, endpoint_subnets id cs = Some l -> endpoint_ranges id cs = Some l0 -> id <> 0 ->
    pairwise_disjoint (map iv l0) -> Forall (fun r => 0 < g_min r) l0 -> well_configured (ex_ep ref id cs)).
  { intros ref id cs l l0 E E0 Hid D G. unfold ex_ep. rewrite E. apply (create_well_configured ref id cs l Hid E).
    intros l1 E1. rewrite E0 in E1. injection E1 as <-. auto. }
  intros e H. destruct H as [<-|[<-|[<-|[]]]];
    (eapply K; [vm_compute; reflexivity|vm_compute; reflexivity|discriminate|repeat constructor; unfold iv_disjoint, in_iv; cbn; lia|repeat constructor]).
Qed.
Example C23_run : fst (route_run [] [RIns exA; RIns exC; RIns exB; RAsk 0x20105; RAsk 0x10177; RRem 0x10001 (Some 9); RRem 0x10001 (Some 1); RIns exC; RAsk 0x20105; RAsk 0x20106]) =
  [RFlag true; RFlag false; RFlag true; RFound (Some 1); RFound (Some 2); RFlag false; RFlag true; RFlag true; RFound (Some 3); RFound None].
Proof. vm_compute. reflexivity. Qed.

(** Outside the hypothesis both claims fail.  An endpoint with nested subnets
    (possible, see C21): a lookup misses an id it serves, and a second endpoint with
    an overlapping subnet is accepted. *)
Theorem C24_nested_refuted : exists e, endpoint_subnets 0x15 [{| c_prefix := 0x15; c_mask := 0 |}; {| c_prefix := 0x17; c_mask := 0 |}; {| c_prefix := 0x10; c_mask := 3 |}] = Some (e_subs e) /\
  e_id e = 0x15 /\ in_ivs (map iv (e_subs e)) 0x14 /\ find_route (snd (insert_child [] e)) 0x14 = None.
Proof.
  eexists {| e_ref := 1; e_id := 0x15; e_subs := _ |}. split; [vm_compute; reflexivity|]. split; [reflexivity|]. split; [|vm_compute; reflexivity].
  cbn. unfold in_ivs, in_iv. eexists. split; [right; now left|]. cbn. lia.
Qed.
Theorem C23_nested_refuted : exists a b id,
  endpoint_subnets 0x15 [{| c_prefix := 0x15; c_mask := 0 |}; {| c_prefix := 0x17; c_mask := 0 |}; {| c_prefix := 0x10; c_mask := 3 |}] = Some (e_subs a) /\
  endpoint_subnets 0x12 [] = Some (e_subs b) /\
  fst (insert_child (snd (insert_child [] a)) b) = true /\
  in_ivs (map iv (e_subs a)) id /\ in_ivs (map iv (e_subs b)) id.
Proof.
  eexists {| e_ref := 1; e_id := 0x15; e_subs := _ |}, {| e_ref := 2; e_id := 0x12; e_subs := _ |}, 0x12.
  split; [vm_compute; reflexivity|]. split; [vm_compute; reflexivity|]. split; [vm_compute; reflexivity|]. cbn. unfold in_ivs, in_iv. split; eexists.
  - split; [right; now left|]. cbn. lia.
  - split; [now left|]. cbn. lia.
Qed.
(** Two endpoints whose subnets both start at id 0: the overlap goes unnoticed and
    the second overwrites the route of the first. *)
Theorem C23_zero_refuted : exists a b, endpoint_subnets 5 [{| c_prefix := 0; c_mask := 4 |}] = Some (e_subs a) /\
  endpoint_subnets 6 [{| c_prefix := 0; c_mask := 4 |}] = Some (e_subs b) /\ e_ref a <> e_ref b /\
  fst (insert_child (snd (insert_child [] a)) b) = true /\ map iv (e_subs a) = map iv (e_subs b) /\
  option_map e_ref (find_route (snd (insert_child (snd (insert_child [] a)) b)) 5) = Some (e_ref b).
Proof.
  eexists {| e_ref := 1; e_id := 5; e_subs := _ |}, {| e_ref := 2; e_id := 6; e_subs := _ |}.
  split; [vm_compute; reflexivity|]. split; [vm_compute; reflexivity|]. split; [discriminate|]. split; [vm_compute; reflexivity|]. split; vm_compute; reflexivity.
Qed.
