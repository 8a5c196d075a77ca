(** A node with a parent reports that it is up only once a parent was added: C65. *)
From Verif Require Import Base Subnet SubnetSpec SubnetProof Route Address NodeTypes NodeConn NodeCore NodeMsg Node
  NodeFrame NodeReset NodeInv NodeKeep NodeSteps NodeCtx NodeReach NodeSpec NodeLog NodeTime NodeUp NodeGrant NodeParent NodeExample PropParent.
Local Open Scope N_scope.
Ltac Zify.zify_post_hook ::= idtac.

(** [t] was reported and the node was not reset since (the log is newest first). *)
Definition since_reset (t : tr) (l : list tr) : Prop := exists a b, l = a ++ t :: b /\ ~ In TReset a.
(** Every range of the second list lies within one range of the first. *)
Definition within (ps cs : list range) : Prop :=
  forall c, In c cs -> exists p, In p ps /\ forall i, g_min c <= i <= g_max c -> g_min p <= i <= g_max p.

Lemma since_life t l : t <> TReset -> (since_reset t l <-> In t (life l)).
Proof.
  intro NT. split.
  - intros (a & b & -> & N). induction a as [|x a IH]; cbn [app].
    + destruct t; try (left; reflexivity); contradiction.
    + destruct x; cbn; try (right; apply IH; intro X; apply N; now right). apply N. now left.
  - induction l as [|x l IH]; [contradiction|]. intro H.
    assert (K : x <> TReset /\ (t = x \/ In t (life l))) by (destruct x; cbn in H; try contradiction; (split; [discriminate|destruct H; auto])).
    destruct K as [K [->|K2]]; [exists [], l; split; [reflexivity|auto]|].
    destruct (IH K2) as (a & b & E & N). exists (x :: a), b. rewrite E. split; [reflexivity|]. intros [X|X]; [now apply K|now apply N].
Qed.
Lemma covers_within s p : covers s p -> within (e_subs p) (my_subs s).
Proof.
  unfold covers. intros H c Hc. rewrite subnets_contain_unfold, forallb_forall in H. specialize (H c Hc).
  apply existsb_exists in H as (p' & Hp & H). apply andb_prop in H. rewrite !contain_id_iff in H. exists p'. split; [exact Hp|]. lia.
Qed.

(** ** C65 *)
Theorem C65_parent_first n evs s : run n evs new_node = Some s -> since_reset TUp (log s) -> my_id s <> 0 -> x_parent (cf s) <> [] ->
  exists e, since_reset (TAdded e) (log s) /\ within (e_subs (d_ep (es s e))) (my_subs s).
Proof.
  intros R U I X. assert (O : upok s) by (apply reachable_upok; now exists n, evs).
  apply since_life in U; [|discriminate]. destruct (O_up s O U) as [Y|[Y|(e & _ & A & C)]]; try contradiction.
  exists e. split; [now apply since_life|now apply covers_within].
Qed.
(** The same of the parent a node has at any time. *)
Theorem C65_parent_covers n evs s : run n evs new_node = Some s -> parent s <> None ->
  exists e, since_reset (TAdded e) (log s) /\ within (e_subs (d_ep (es s e))) (my_subs s).
Proof.
  intros R P. assert (O : upok s) by (apply reachable_upok; now exists n, evs).
  destruct (O_parent s O P) as (e & _ & A & C). exists e. split; [now apply since_life|now apply covers_within].
Qed.
(** And a registration of the node was reported accepted. *)
Theorem C65_accepted n evs s : run n evs new_node = Some s -> since_reset TUp (log s) -> my_id s <> 0 -> x_parent (cf s) <> [] ->
  exists c z, since_reset (TReg c z) (log s) /\ (0 <= z)%Z.
Proof.
  intros R U I X. apply since_life in U; [|discriminate].
  destruct (W_up s (granted_run n evs s R) U) as [Y|[Y|(c & z & A & Z)]]; try contradiction.
  exists c, z. split; [now apply since_life|exact Z].
Qed.
Example C65_case : exists s, run fuel0 (up0 ++ EStart 100 :: up1) new_node = Some s /\ since_reset TUp (log s) /\ my_id s <> 0 /\
  x_parent (cf s) <> [] /\ parent s <> None.
Proof.
  pose (f := fun s => (my_id s, x_parent (cf s), existsb (fun t => match t with TUp => true | _ => false end) (life (log s)), match parent s with Some p => e_id p | None => 0 end)).
  assert (E : option_map f (run fuel0 (up0 ++ EStart 100 :: up1) new_node) = Some (65536, adr, true, 1)) by (vm_compute; reflexivity).
  destruct (run fuel0 (up0 ++ EStart 100 :: up1) new_node) as [s|]; [|discriminate E]. cbn [option_map] in E. injection E as H1 H2 H3 H4.
  exists s. split; [reflexivity|]. split.
  - apply since_life; [discriminate|]. apply existsb_exists in H3 as (t & T1 & T2). destruct t; try discriminate T2. exact T1.
  - rewrite H1, H2. split; [discriminate|]. split; [discriminate|]. intro X. rewrite X in H4. discriminate H4.
Qed.
(** What is not so: that the parent is the one at the configured address. While the connection
    to it is still being set up, anybody the node accepts a connection from may register
    a range around the node's own; it becomes the parent and its answer makes the node report that it is up. *)
Definition stranger : list event := up0 ++ [EStart 100; EIo (IAccepted adr2);
  EIo (IRecv 2 (RMsg 10 (msg0 1 (BReg false (reg0 1 wide)))));
  EIo (IRecv 2 (RMsg 10 (msg0 1 (BReg true (reg0 1 wide)))))].
Theorem C65_stranger_refuted : exists s, run fuel0 stranger new_node = Some s /\ since_reset TUp (log s) /\
  x_parent (cf s) = adr /\ pend s = [1; 3] /\ k_addr (cs s 1) = adr /\ k_addr (cs s 2) = adr2.
Proof.
  pose (f := fun s => (x_parent (cf s), existsb (fun t => match t with TUp => true | _ => false end) (life (log s)), pend s, k_addr (cs s 1), k_addr (cs s 2))).
  assert (E : option_map f (run fuel0 stranger new_node) = Some (adr, true, [1; 3], adr, adr2)) by (vm_compute; reflexivity).
  destruct (run fuel0 stranger new_node) as [s|]; [|discriminate E]. cbn [option_map] in E. injection E as H1 H2 H3 H4 H5.
  exists s. split; [reflexivity|]. split.
  - apply since_life; [discriminate|]. apply existsb_exists in H2 as (t & T1 & T2). destruct t; try discriminate T2. exact T1.
  - repeat (split; [assumption|]). assumption.
Qed.

Print Assumptions C65_parent_first.
Print Assumptions C65_parent_covers.
Print Assumptions C65_accepted.
Print Assumptions C65_stranger_refuted.
