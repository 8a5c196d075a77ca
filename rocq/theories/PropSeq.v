(** Message sequence numbers. *)
From Verif Require Import Base NodeTypes NodeConn NodeCore NodeMsg Node NodeInv NodeSteps NodeReach.
Local Open Scope N_scope.
Ltac Zify.zify_post_hook ::= idtac.

(** [node::alloc_msg_seq] (atbus_node.cpp 1840-1846): the counter is an atomic 64 bit
    number; [inc] adds one and gives the new value (lock/seq_alloc.h, not part of the
    repository); a thread that got 0 increments again.  One increment of any thread is one
    step; the list names the threads in the order of their increments, and the result
    holds the numbers that were returned, in that order. *)
Fixpoint serve (c : N) (threads : list nat) : list (nat * N) :=
  match threads with
  | [] => []
  | t :: r => let v := wrap64 (c + 1) in if v =? 0 then serve v r else (t, v) :: serve v r
  end.

(** ** C43 *)
Definition period : N := 2 ^ 64 - 1.
Lemma period_pos : 0 < period.
Proof. reflexivity. Qed.
Definition nth_seq (c : N) (k : N) : N := 1 + (c + k) mod period.
Lemma serve_step c t r : c < 2 ^ 64 -> serve c (t :: r) =
  if c =? period then serve 0 r else (t, c + 1) :: serve (c + 1) r.
Proof.
  intro H. cbn [serve]. unfold wrap64, two64. change (2 ^ 64) with (period + 1) in *. destruct (N.eqb_spec c period) as [->|E].
  - rewrite N.mod_same by discriminate. reflexivity.
  - rewrite (N.mod_small (c + 1)) by lia. destruct (N.eqb_spec (c + 1) 0); [lia|reflexivity].
Qed.
(** Counter values [0] and [2^64-1] are followed by the same numbers. *)
Lemma serve_nth threads : forall c, c < 2 ^ 64 -> forall i p, nth_error (serve c threads) i = Some p -> snd p = nth_seq c (N.of_nat i).
Proof.
  induction threads as [|t r IH]; intros c H i p E; [destruct i; discriminate|]. rewrite serve_step in E by exact H.
  destruct (N.eqb_spec c period) as [->|C].
  - rewrite (IH 0 ltac:(reflexivity) i p E). unfold nth_seq. rewrite N.add_0_l.
    replace (period + N.of_nat i) with (N.of_nat i + 1 * period) by lia. now rewrite N.mod_add by discriminate.
  - assert (L : c + 1 < 2 ^ 64) by (change (2 ^ 64) with (period + 1) in *; lia). destruct i as [|i]; cbn [nth_error] in E.
    + injection E as <-. cbn [snd]. unfold nth_seq. rewrite N.add_0_r, N.mod_small by (change (2 ^ 64) with (period + 1) in *; lia). lia.
    + rewrite (IH _ L i p E). unfold nth_seq. f_equal. f_equal. lia.
Qed.
Lemma mod_apart p k d : 0 < d < p -> k mod p <> (k + d) mod p.
Proof.
  intros D M. pose proof (N.div_mod k p ltac:(lia)) as H. pose proof (N.div_mod (k + d) p ltac:(lia)) as H0. rewrite <- M in H0.
  set (a := k / p) in *. set (b := (k + d) / p) in *. set (r := k mod p) in *. clearbody a b r.
  assert (L : a < b \/ b <= a) by lia. destruct L as [L|L]; nia.
Qed.
(** No number is 0, whichever threads allocate in whichever order. *)
Theorem C43_never_zero c threads t v : c < 2 ^ 64 -> In (t, v) (serve c threads) -> v <> 0 /\ v < 2 ^ 64.
Proof.
  intros H IN. apply In_nth_error in IN as (i & E). pose proof (serve_nth threads c H i _ E) as X. cbn [snd] in X. rewrite X. unfold nth_seq.
  pose proof (N.mod_lt (c + N.of_nat i) period ltac:(discriminate)). change (2 ^ 64) with (period + 1).
  set (q := (c + N.of_nat i) mod period) in *. clearbody q. split; lia.
Qed.
(** Between two allocations of the same number there are at least 2^64-2 others. *)
Theorem C43_no_repeat c threads l1 t v l2 t' l3 : c < 2 ^ 64 -> serve c threads = l1 ++ (t, v) :: l2 ++ (t', v) :: l3 ->
  2 ^ 64 - 2 <= N.of_nat (length l2).
Proof.
  intros H E. assert (E1 : nth_error (serve c threads) (length l1) = Some (t, v)) by (rewrite E, nth_error_app2, Nat.sub_diag by lia; reflexivity).
  assert (E2 : nth_error (serve c threads) (length l1 + S (length l2)) = Some (t', v)).
  { rewrite E, nth_error_app2 by lia. replace (length l1 + S (length l2) - length l1)%nat with (S (length l2)) by lia. cbn [nth_error].
    rewrite nth_error_app2, Nat.sub_diag by lia. reflexivity. }
  apply serve_nth in E1, E2; try exact H. cbn [snd] in *. rewrite E1 in E2. unfold nth_seq in E2.
  destruct (N.le_gt_cases (2 ^ 64 - 2) (N.of_nat (length l2))) as [|L]; [assumption|exfalso]. change (2 ^ 64 - 2) with (period - 1) in L.
  assert (P := period_pos). set (k := c + N.of_nat (length l1)) in *. replace (c + N.of_nat (length l1 + S (length l2))) with (k + (N.of_nat (length l2) + 1)) in E2 by lia.
  set (d := N.of_nat (length l2) + 1) in *. assert (D : 0 < d < period) by lia. apply (mod_apart period k d D). lia.
Qed.
(** The node model allocates by this rule. *)
Theorem C43_node s t r : seqn s < 2 ^ 64 -> exists k, (k <= 1)%nat /\
  serve (seqn s) (repeat t k ++ t :: r) = (t, snd (alloc_seq s)) :: serve (seqn (fst (alloc_seq s))) r.
Proof.
  intro H. unfold alloc_seq. cbn [fst snd]. destruct (N.eqb_spec (seqn s) period) as [E|E].
  - exists 1%nat. split; [lia|]. cbn [repeat app]. rewrite serve_step by exact H. apply N.eqb_eq in E as E'. rewrite E'. rewrite serve_step by reflexivity.
    rewrite E. reflexivity.
  - exists 0%nat. split; [lia|]. cbn [repeat app]. rewrite serve_step by exact H. apply N.eqb_neq in E as E'. rewrite E'.
    unfold wrap64, two64. change (2 ^ 64) with (period + 1) in *. rewrite (N.mod_small (seqn s + 1)) by lia. destruct (N.eqb_spec (seqn s + 1) 0); [lia|]. reflexivity.
Qed.
(** Two threads around the end of the range. *)
Example C43_case : serve (2 ^ 64 - 2) [0; 1; 0; 1]%nat = [(0%nat, 2 ^ 64 - 1); (0%nat, 1); (1%nat, 2)].
Proof. reflexivity. Qed.
Print Assumptions C43_never_zero.
Print Assumptions C43_no_repeat.
Print Assumptions C43_node.
