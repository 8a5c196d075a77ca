(** Receiving from arbitrary memory: node heads, block heads and data unconstrained. *)
From Verif Require Import Base MemSpec Mem MemProof.
Local Open Scope N_scope.
Local Ltac Zify.zify_post_hook ::= idtac.

(** * The queue as seen by an observer *)
Lemma queue_fifo n p os : forall q,
  let (xs, q') := queue_run n p q os in q ++ accepted os xs = received xs ++ q'.
Proof.
  induction os as [|o os IH]; intros q; cbn [queue_run]; [now rewrite app_nil_r|].
  destruct (queue_step n p q o) as [x q1] eqn:E1. destruct (queue_run n p q1 os) as [xs q2] eqn:E2.
  specialize (IH q1). rewrite E2 in IH. destruct o as [m|cap]; cbn [queue_step] in E1.
  - destruct (N.eqb_spec (blen m) 0) as [Z|Z].
    + injection E1 as <- <-. cbn [accepted received]. change ((OK =? 0)%Z) with true.
      rewrite (proj2 (N.eqb_eq _ _) Z). cbn. exact IH.
    + destruct (_ <=? _); injection E1 as <- <-; cbn [accepted received].
      * rewrite (proj2 (N.eqb_neq _ _) Z). cbn [negb andb]. change ((OK =? OK)%Z) with true. cbn [andb].
        rewrite <- IH, <- app_assoc. reflexivity.
      * exact IH.
  - destruct q as [|m q].
    + injection E1 as <- <-. cbn. exact IH.
    + destruct (_ <? _); injection E1 as <- <-; cbn [accepted received].
      * exact IH.
      * change ((OK =? OK)%Z) with true. cbn [app]. f_equal. exact IH.
Qed.

(** * Bounds on scanning *)
Lemma scan_block_bound fuel : forall n first i w seq h e h',
  0 < n -> i < n -> scan_block fuel n first i w seq h = (e, h') -> e < n.
Proof.
  induction fuel as [|f IH]; intros n first i w seq h e h' Hn Hi E; cbn [scan_block] in E.
  - congruence.
  - destruct (i =? w); [congruence|]. destruct (negb _); [congruence|]. destruct (negb _ && _); [congruence|].
    apply IH in E; trivial. apply ring_lt. lia.
Qed.

Definition dist (n i w : N) : N := (w + n - i) mod n.
Lemma dist_step n i w : i < n -> w < n -> i <> w -> dist n ((i + 1) mod n) w + 1 = dist n i w.
Proof.
  intros. unfold dist. rewrite (ring_add n i 1) by lia.
  destruct (N.lt_ge_cases i w).
  - rewrite (proj2 (N.ltb_lt _ _)) by lia.
    replace (w + n - (i + 1)) with ((w - i - 1) + 1 * n) by lia. replace (w + n - i) with ((w - i) + 1 * n) by lia.
    rewrite !N.mod_add, !N.mod_small by lia. lia.
  - destruct (N.ltb_spec (i + 1) n).
    + rewrite !N.mod_small by lia. lia.
    + replace (w + n - (i + 1 - n)) with (w + 1 * n) by lia. rewrite N.mod_add by lia.
      rewrite !N.mod_small by lia. lia.
Qed.
Lemma dist_lt n i w : 0 < n -> dist n i w < n.
Proof. intros. apply N.mod_lt. lia. Qed.

Section Hash.
Variable hash : bytes -> N.

(** What one pass guarantees. *)
Definition good (c : chan) (cap : N) (s : rstate) (e : N) : Prop :=
  e < ch_n c /\ rs_cur s < ch_n c /\
  (rs_ret s = 0%Z ->
   let size := read_word (ch_data c) (256 * rs_cur s) in
   1 <= size <= cap /\ size < 256 * ch_n c).
Lemma or_ret_nonzero r d : d <> 0%Z -> or_ret r d <> 0%Z.
Proof. unfold or_ret. destruct (Z.eqb_spec r 0); congruence. Qed.

Lemma pass_good c clk cap s :
  0 < ch_n c -> rs_cur s < ch_n c ->
  match recv_pass c clk cap s with
  | Again s' => rs_cur s <> ch_w c /\ rs_cur s' = (rs_cur s + 1) mod ch_n c
  | Leave s' e => good c cap s' e
  end.
Proof.
  intros Hn Hi. unfold recv_pass.
  destruct (N.eqb_spec (rs_cur s) (ch_w c)).
  { split; [|split]; cbn [stop_with rs_cur rs_ret]; trivial. intros E. apply or_ret_nonzero in E; [contradiction|discriminate]. }
  destruct (rs_heads s (rs_cur s)) as [flag seq].
  destruct (N.testbit flag 0); cbn [negb].
  - destruct (N.testbit flag 1); cbn [negb]; [|split; trivial; reflexivity].
    destruct (Z.eqb_spec (rs_ret s) 0) as [R|R]; cbn [negb].
    2:{ split; [|split]; trivial. intros; contradiction. }
    change (node_sz * rs_cur s) with (256 * rs_cur s). set (size := read_word (ch_data c) (256 * rs_cur s)).
    destruct ((size =? 0) || (node_sz * ch_n c - node_sz * ch_p c <=? size)) eqn:Es; [split; trivial; reflexivity|].
    apply Bool.orb_false_iff in Es. destruct Es as [E1 E2]. apply N.eqb_neq in E1. apply N.leb_gt in E2. unfold node_sz in E2.
    destruct (N.ltb_spec cap size).
    { split; [|split]; cbn [stop_with rs_cur rs_ret]; trivial. intros E. apply or_ret_nonzero in E; [contradiction|discriminate]. }
    destruct (scan_block _ _ _ _ _ _ _) as [e h] eqn:Esc. apply scan_block_bound in Esc; trivial.
    destruct (_ =? _); [|split; trivial; reflexivity].
    split; [|split]; cbn [rs_cur rs_ret]; trivial. intros _. fold size. lia.
  - destruct (negb (rs_tmo s =? 0) && (rs_tmo s =? seq) && negb (N.testbit flag 1)); [split; trivial; reflexivity|].
    destruct (rs_fft s =? 0).
    { split; [|split]; cbn [stop_with rs_cur rs_ret]; trivial. intros E. apply or_ret_nonzero in E; [contradiction|discriminate]. }
    destruct (_ <? _); [split; trivial; reflexivity|].
    split; [|split]; cbn [stop_with rs_cur rs_ret]; trivial. intros E. apply or_ret_nonzero in E; [contradiction|discriminate].
Qed.

Lemma loop_good c clk cap : 0 < ch_n c -> forall fuel s,
  rs_cur s < ch_n c ->
  match recv_loop fuel c clk cap s with LoopDone s' e => good c cap s' e | LoopOut => True end.
Proof.
  intros Hn fuel. induction fuel as [|f IH]; intros s Hi; cbn [recv_loop]; trivial.
  pose proof (pass_good c clk cap s Hn Hi) as P. destruct (recv_pass c clk cap s) as [s'|s' e]; trivial.
  apply IH. destruct P as [_ ->]. apply ring_lt. lia.
Qed.
Lemma loop_ends c clk cap : 0 < ch_n c -> ch_w c < ch_n c -> forall fuel s,
  rs_cur s < ch_n c -> (N.to_nat (dist (ch_n c) (rs_cur s) (ch_w c)) < fuel)%nat -> recv_loop fuel c clk cap s <> LoopOut.
Proof.
  intros Hn Hw fuel. induction fuel as [|f IH]; intros s Hi Hf; [lia|]. cbn [recv_loop].
  pose proof (pass_good c clk cap s Hn Hi) as P. destruct (recv_pass c clk cap s) as [s'|s' e]; [|discriminate].
  destruct P as [P1 P2]. apply IH.
  - rewrite P2. apply ring_lt. lia.
  - rewrite P2. pose proof (dist_step (ch_n c) (rs_cur s) (ch_w c) Hi Hw P1). lia.
Qed.

Lemma read_bytes_nth m a k j : (j < k)%nat -> nth j (read_bytes m a k) 0 = m (a + N.of_nat j).
Proof.
  revert a j. induction k as [|k IH]; intros a j H; [lia|]. cbn [read_bytes]. destruct j; cbn [nth].
  - f_equal. lia.
  - rewrite IH by lia. f_equal. lia.
Qed.

Lemma addr_wrap n i j : i < n -> j < 256 * n + 16 ->
  addr n i j = if 256 * i + j <? 256 * n then 256 * i + j else 256 * i + j - 256 * n.
Proof.
  intros. unfold addr. destruct (N.ltb_spec (256 * i + j) (256 * n)); [now apply N.mod_small|].
  replace (256 * i + j) with ((256 * i + j - 256 * n) + 1 * (256 * n)) at 1 by lia.
  rewrite N.mod_add by lia. apply N.mod_small. lia.
Qed.
(** Bytes copied out of a block, wrapping around the end of the data area. *)
Lemma copy_out n d i size :
  i < n -> size < 256 * n ->
  let room := node_sz * n - node_sz * i - bhead in
  let out := if size <=? room then read_bytes d (node_sz * i + bhead) (N.to_nat size)
             else read_bytes d (node_sz * i + bhead) (N.to_nat room) ++ read_bytes d 0 (N.to_nat (size - room)) in
  blen out = size /\ forall j, j < size -> nth (N.to_nat j) out 0 = d (addr n i (16 + j)).
Proof.
  intros Hi Hs room out.
  assert (Er : room + 16 + 256 * i = 256 * n) by (unfold room, node_sz, bhead; lia).
  unfold out. destruct (N.leb_spec size room).
  - split; [unfold blen; rewrite read_bytes_length; lia|]. intros j Hj. rewrite read_bytes_nth by lia.
    rewrite addr_wrap by lia. rewrite (proj2 (N.ltb_lt _ _)) by lia. f_equal. unfold node_sz, bhead. lia.
  - split; [rewrite blen_app; unfold blen; rewrite !read_bytes_length; lia|]. intros j Hj.
    rewrite addr_wrap by lia. destruct (N.ltb_spec (256 * i + (16 + j)) (256 * n)).
    + rewrite app_nth1 by (rewrite read_bytes_length; lia). rewrite read_bytes_nth by lia. f_equal. unfold node_sz, bhead. lia.
    + rewrite app_nth2 by (rewrite read_bytes_length; lia). rewrite read_bytes_length, read_bytes_nth by lia. f_equal. lia.
Qed.

(** [stored c i b]: the channel memory holds at node [i] a block head announcing
    [length b] bytes with the checksum of [b]. *)
Definition stored (c : chan) (i : N) (b : bytes) : Prop :=
  i < ch_n c /\ read_word (ch_data c) (256 * i) = blen b /\ read_word (ch_data c) (256 * i + 8) = fast_check hash b /\
  (forall j, j < blen b -> nth (N.to_nat j) b 0 = ch_data c (addr (ch_n c) i (16 + j))).

Lemma recv_any fuel c clk cap :
  0 < ch_n c ->
  match mem_recv_fuel hash fuel c clk cap with
  | Done code b size c' =>
      blen b <= cap /\ ch_r c' < ch_n c /\ ch_n c' = ch_n c /\ ch_p c' = ch_p c /\ ch_w c' = ch_w c /\ ch_data c' = ch_data c /\
      (code = OK -> 1 <= blen b /\ size = Some (blen b) /\ exists i, stored c i b)
  | _ => True
  end.
Proof.
  intros Hn. unfold mem_recv_fuel. destruct (N.leb_spec (ch_n c) (ch_r c)); trivial.
  match goal with |- context [recv_loop fuel c clk cap ?s] => pose proof (loop_good c clk cap Hn fuel s ltac:(assumption)) as G;
    destruct (recv_loop fuel c clk cap s) as [s' e|]; trivial end.
  destruct G as (G1 & G2 & G3). destruct (Z.eqb_spec (rs_ret s') 0) as [R|R]; cbn [negb].
  - specialize (G3 R). cbn zeta in G3. change (node_sz * rs_cur s') with (256 * rs_cur s'). cbv zeta.
    set (size := read_word (ch_data c) (256 * rs_cur s')) in *.
    pose proof (copy_out (ch_n c) (ch_data c) (rs_cur s') size G2 ltac:(lia)) as C. cbv zeta in C.
    change (node_sz * rs_cur s') with (256 * rs_cur s') in C. destruct C as [C1 C2].
    match goal with |- context [fast_check hash ?x] => set (out := x) in * end.
    rewrite C1. split; [lia|]. split; [exact G1|]. do 4 (split; [reflexivity|]). intros E.
    split; [lia|]. split; [reflexivity|]. exists (rs_cur s').
    destruct (N.eqb_spec (fast_check hash out) (read_word (ch_data c) (256 * rs_cur s' + 8))) as [F|F]; [|discriminate].
    split; [assumption|]. split; [fold size; congruence|]. split; [congruence|].
    intros j Hj. apply C2; lia.
  - cbn. repeat split; trivial; try lia; try contradiction.
Qed.
Lemma recv_any_ends c clk cap :
  ch_r c < ch_n c -> ch_w c < ch_n c -> exists code b size c', mem_recv hash c clk cap = Done code b size c'.
Proof.
  intros Hr Hw. unfold mem_recv, mem_recv_fuel. rewrite (proj2 (N.leb_gt _ _)) by assumption.
  match goal with |- context [recv_loop ?fuel c clk cap ?s] => pose proof (loop_ends c clk cap ltac:(lia) Hw fuel s ltac:(assumption)) as G;
    destruct (recv_loop fuel c clk cap s) as [s' e|] end.
  - destruct (negb _); repeat eexists.
  - exfalso. apply G; trivial. pose proof (dist_lt (ch_n c) (ch_r c) (ch_w c) ltac:(lia)). cbn [rs_cur]. lia.
Qed.

(** A write cursor outside the node array can keep the receiver busy for ever. *)
Definition lost_chan : chan :=
  {| ch_n := 1; ch_p := 0; ch_timeout := 4; ch_retry := 4; ch_r := 0; ch_w := 5; ch_seq := 7; ch_fft := 1;
     ch_heads := fun _ => (0, 7); ch_data := fun _ => 0 |}.
Lemma lost_forever fuel cap : mem_recv_fuel hash fuel lost_chan (fun _ => 100) cap = Unfinished.
Proof.
  unfold mem_recv_fuel. change (ch_n lost_chan <=? ch_r lost_chan) with false. cbv iota.
  assert (L : forall f s, rs_cur s = 0 -> (forall x, rs_heads s x = (0, 7)) -> rs_tmo s = 7 ->
                     recv_loop f lost_chan (fun _ => 100) cap s = LoopOut).
  { induction f as [|f IH]; intros s H1 H2 H3; cbn [recv_loop]; trivial. unfold recv_pass.
    rewrite H1, H2, H3. cbn. apply IH; cbn [advance rs_cur rs_heads rs_tmo]; trivial.
    - rewrite H1. reflexivity.
    - intros x. unfold set_flag, set_head. rewrite !H2. now destruct (x =? 0). }
  destruct fuel as [|f]; trivial. cbn [recv_loop]. unfold recv_pass. cbn [rs_cur rs_heads rs_tmo rs_fft lost_chan ch_w ch_heads].
  change (0 =? 5) with false. cbn. rewrite L; trivial.
  intros x. cbn. unfold set_flag, set_head. now destruct (x =? 0).
Qed.
End Hash.
