(** Proofs about the sequential memory channel. *)
From Verif Require Import Base MemSpec Mem.
Local Open Scope N_scope.
Local Ltac Zify.zify_post_hook ::= idtac.

(** * Ring arithmetic *)
Lemma ring_add n i k : i < n -> k <= n -> (i + k) mod n = if i + k <? n then i + k else i + k - n.
Proof.
  intros Hi Hk. destruct (N.ltb_spec (i + k) n).
  - now apply N.mod_small.
  - replace (i + k) with ((i + k - n) + 1 * n) at 1 by lia.
    rewrite N.mod_add by lia. apply N.mod_small. lia.
Qed.
Ltac ring_norm :=
  repeat match goal with
  | |- context [(?a + ?b) mod ?n] => rewrite (ring_add n a b) by lia
  | H : context [(?a + ?b) mod ?n] |- _ => rewrite (ring_add n a b) in H by lia
  end.
Ltac ltbs :=
  repeat match goal with
  | |- context [?a <? ?b] => destruct (N.ltb_spec a b)
  | H : context [?a <? ?b] |- _ => destruct (N.ltb_spec a b)
  | |- context [?a <=? ?b] => destruct (N.leb_spec a b)
  | H : context [?a <=? ?b] |- _ => destruct (N.leb_spec a b)
  | |- context [?a =? ?b] => destruct (N.eqb_spec a b)
  | H : context [?a =? ?b] |- _ => destruct (N.eqb_spec a b)
  end.
Lemma ring_lt n i k : 0 < n -> (i + k) mod n < n.
Proof. intros. apply N.mod_lt. lia. Qed.
Lemma ring_assoc n i a b : 0 < n -> ((i + a) mod n + b) mod n = (i + (a + b)) mod n.
Proof. intros. rewrite N.add_mod_idemp_l by lia. f_equal. lia. Qed.
Lemma ring_inj n i a b : i < n -> a < n -> b < n -> (i + a) mod n = (i + b) mod n -> a = b.
Proof. intros. ring_norm. ltbs; lia. Qed.

(** Addresses. *)
Definition addr (n i j : N) : N := (256 * i + j) mod (256 * n).
Lemma addr_eq n i j : i < n -> j <= 256 * n -> addr n i j = if 256 * i + j <? 256 * n then 256 * i + j else 256 * i + j - 256 * n.
Proof. intros. apply ring_add; lia. Qed.
Lemma addr_node n i j : i < n -> addr n i j / 256 = (i + j / 256) mod n.
Proof.
  intros. unfold addr. rewrite N.mod_mul_r by lia.
  assert ((256 * i + j) / 256 = i + j / 256) as ->.
  { replace (256 * i + j) with (j + i * 256) by lia. rewrite N.div_add by lia. lia. }
  rewrite (N.mul_comm 256 (_ mod n)), N.div_add by lia. rewrite N.div_small; [lia|]. apply N.mod_lt. lia.
Qed.

(** * Byte memory *)
Lemma blen_app a b : blen (a ++ b) = blen a + blen b.
Proof. unfold blen. rewrite app_length. lia. Qed.
Lemma write_bytes_in m a bs x : a <= x -> x < a + blen bs -> write_bytes m a bs x = nth (N.to_nat (x - a)) bs 0.
Proof. intros. unfold write_bytes. now rewrite (proj2 (N.leb_le _ _)), (proj2 (N.ltb_lt _ _)) by lia. Qed.
Lemma write_bytes_out m a bs x : x < a \/ a + blen bs <= x -> write_bytes m a bs x = m x.
Proof. intros. unfold write_bytes. destruct (N.leb_spec a x), (N.ltb_spec x (a + blen bs)); cbn; trivial; lia. Qed.
Lemma read_bytes_length m a k : length (read_bytes m a k) = k.
Proof. revert a. induction k; intros; cbn; auto. Qed.
Lemma read_bytes_ext m m' a k : (forall x, a <= x -> x < a + N.of_nat k -> m x = m' x) -> read_bytes m a k = read_bytes m' a k.
Proof.
  revert a. induction k; intros a H; cbn [read_bytes]; trivial. f_equal.
  - apply H; lia.
  - apply IHk. intros. apply H; lia.
Qed.
Lemma read_bytes_spec m a bs : (forall j, j < blen bs -> m (a + j) = nth (N.to_nat j) bs 0) -> read_bytes m a (length bs) = bs.
Proof.
  revert a. induction bs as [|b bs IH]; intros a H; cbn [read_bytes length]; trivial. f_equal.
  - specialize (H 0). rewrite N.add_0_r in H. apply H. unfold blen; cbn [length]; lia.
  - apply IH. intros j Hj. specialize (H (j + 1)).
    replace (a + 1 + j) with (a + (j + 1)) by lia. rewrite H by (unfold blen in *; cbn [length]; lia).
    replace (N.to_nat (j + 1)) with (S (N.to_nat j)) by lia. reflexivity.
Qed.
Lemma read_write_bytes m a bs : read_bytes (write_bytes m a bs) a (length bs) = bs.
Proof.
  apply read_bytes_spec. intros. rewrite write_bytes_in by lia. f_equal. lia.
Qed.
Lemma word_bytes_length k v : length (word_bytes k v) = k.
Proof. revert v. induction k; intros; cbn; auto. Qed.
Lemma bytes_word_bytes k v : v < 256 ^ N.of_nat k -> bytes_word (word_bytes k v) = v.
Proof.
  revert v. induction k as [|k IH]; intros v H; cbn [word_bytes bytes_word].
  - cbn in H. lia.
  - rewrite IH.
    + rewrite N.add_comm. symmetry. apply N.div_mod'.
    + apply N.div_lt_upper_bound; [lia|]. rewrite Nat2N.inj_succ, N.pow_succ_r' in H. lia.
Qed.
Lemma read_write_word m a v : v < two64 -> read_word (write_word m a v) a = v.
Proof.
  intros. unfold read_word, write_word.
  pose proof (read_write_bytes m a (word_bytes 8 v)) as E. rewrite word_bytes_length in E. rewrite E.
  apply bytes_word_bytes. exact H.
Qed.
Lemma read_word_ext m m' a : (forall x, a <= x -> x < a + 8 -> m x = m' x) -> read_word m a = read_word m' a.
Proof. intros. unfold read_word. f_equal. now apply read_bytes_ext. Qed.
Lemma blen_word v : blen (word_bytes 8 v) = 8.
Proof. unfold blen. now rewrite word_bytes_length. Qed.
Lemma blen_firstn k m : N.of_nat k <= blen m -> blen (firstn k m) = N.of_nat k.
Proof. unfold blen. intros. rewrite firstn_length. lia. Qed.
Lemma blen_skipn k m : blen (skipn k m) = blen m - N.of_nat k.
Proof. unfold blen. rewrite skipn_length. lia. Qed.
Lemma nth_firstn_lt (m : bytes) k j : (j < k)%nat -> nth j (firstn k m) 0 = nth j m 0.
Proof.
  revert k j. induction m as [|b m IH]; intros k j H; destruct k; try lia; cbn [firstn].
  - destruct j; reflexivity.
  - destruct j; cbn [nth]; trivial. apply IH. lia.
Qed.
Lemma nth_skipn_add (m : bytes) k j : nth j (skipn k m) 0 = nth (k + j) m 0.
Proof. revert m. induction k; intros [|b m]; cbn [skipn]; trivial; [now destruct j|]. cbn. apply IHk. Qed.

(** * The node count of a message *)
Lemma calc_nodes_cost m : blen m < 2 ^ 63 -> calc_nodes (blen m) = cost m.
Proof.
  intros. unfold calc_nodes, cost, bhead, node_sz. rewrite wrap64_small.
  - f_equal. lia.
  - unfold two64. change (2 ^ 63) with 9223372036854775808 in H. lia.
Qed.
Lemma cost_bounds m : blen m + 16 <= 256 * cost m /\ 256 * cost m < blen m + 16 + 256.
Proof.
  unfold cost. pose proof (N.div_mod' (blen m + 16 + 255) 256). pose proof (N.mod_lt (blen m + 16 + 255) 256). lia.
Qed.
Lemma cost_pos m : 1 <= cost m.
Proof. pose proof (cost_bounds m). lia. Qed.

(** * The ring invariant *)
Section Hash.
Variable hash : bytes -> N.

Definition block_at (n : N) (h : N -> N * N) (d : N -> N) (i : N) (m : bytes) : Prop :=
  exists seq,
    h i = (3, seq) /\ (forall j, 1 <= j < cost m -> h ((i + j) mod n) = (1, seq)) /\
    read_word d (256 * i) = blen m /\ read_word d (256 * i + 8) = fast_check hash m /\
    (forall j, j < blen m -> d (addr n i (16 + j)) = nth (N.to_nat j) m 0) /\
    1 <= blen m < 2 ^ 63.
Fixpoint layout (n : N) (h : N -> N * N) (d : N -> N) (i w : N) (q : list bytes) : Prop :=
  match q with
  | [] => i = w
  | m :: r => block_at n h d i m /\ layout n h d ((i + cost m) mod n) w r
  end.
Record inv (c : chan) (q : list bytes) : Prop := {
  inv_n : 1 <= ch_n c < 2 ^ 40;
  inv_p : ch_p c < ch_n c;
  inv_retry : 1 <= ch_retry c;
  inv_r : ch_r c < ch_n c;
  inv_w : ch_w c < ch_n c;
  inv_used : used q + ch_p c + 1 <= ch_n c;
  inv_lay : layout (ch_n c) (ch_heads c) (ch_data c) (ch_r c) (ch_w c) q
}.

Lemma layout_end n h d i w q : i < n -> layout n h d i w q -> w = (i + used q) mod n.
Proof.
  revert i. induction q as [|m q IH]; intros i Hi H.
  - cbn in *. rewrite N.add_0_r, N.mod_small; auto.
  - destruct H as [_ H]. apply IH in H; [|apply ring_lt; lia]. rewrite H.
    rewrite ring_assoc by lia. reflexivity.
Qed.

(** A block only depends on its own nodes. *)
Lemma block_at_frame n h d h' d' i m :
  i < n -> cost m <= n ->
  (forall j, j < cost m -> h' ((i + j) mod n) = h ((i + j) mod n)) ->
  (forall a j, j < cost m -> a / 256 = (i + j) mod n -> d' a = d a) ->
  block_at n h d i m -> block_at n h' d' i m.
Proof.
  intros Hi Hc Eh Ed (seq & H1 & H2 & H3 & H4 & H5 & H6).
  pose proof (cost_bounds m). pose proof (cost_pos m).
  assert (Ed0 : forall a, 256 * i <= a -> a < 256 * i + 16 -> d' a = d a).
  { intros a A1 A2. apply (Ed a 0); [lia|]. rewrite N.add_0_r, N.mod_small by lia.
    symmetry. apply (N.div_unique a 256 i (a - 256 * i)); lia. }
  exists seq. repeat split.
  - specialize (Eh 0). rewrite N.add_0_r, N.mod_small in Eh by lia. rewrite Eh; [exact H1 | lia].
  - intros j Hj. rewrite Eh by lia. now apply H2.
  - rewrite <- H3. apply read_word_ext. intros. apply Ed0; lia.
  - rewrite <- H4. apply read_word_ext. intros. apply Ed0; lia.
  - intros j Hj. rewrite <- H5 by assumption. apply (Ed _ ((16 + j) / 256)).
    + apply N.div_lt_upper_bound; lia.
    + apply addr_node. lia.
  - apply H6.
  - apply H6.
Qed.
Lemma layout_frame n h d h' d' i w q :
  i < n -> used q < n ->
  (forall j, j < used q -> h' ((i + j) mod n) = h ((i + j) mod n)) ->
  (forall a j, j < used q -> a / 256 = (i + j) mod n -> d' a = d a) ->
  layout n h d i w q -> layout n h' d' i w q.
Proof.
  revert i. induction q as [|m q IH]; intros i Hi Hu Eh Ed H; [exact H|].
  cbn [used fold_right] in *. fold (used q) in *. destruct H as [H1 H2]. split.
  - apply (block_at_frame n h d); trivial; try lia.
    + intros. apply Eh. lia.
    + intros a j ? ?. apply (Ed a j); [lia | trivial].
  - apply IH; [apply ring_lt; lia | lia | | | assumption].
    + intros j Hj. rewrite ring_assoc by lia. apply Eh. lia.
    + intros a j Hj E. rewrite ring_assoc in E by lia. apply (Ed a (cost m + j)); [lia | trivial].
Qed.
Lemma layout_snoc n h d i w q m :
  layout n h d i w q -> i < n -> w < n -> block_at n h d w m ->
  layout n h d i ((w + cost m) mod n) (q ++ [m]).
Proof.
  revert i. induction q as [|a q IH]; intros i H Hi Hw B.
  - cbn in H |- *. subst w. split; trivial.
  - destruct H as [H1 H2]. cbn [app layout]. split; trivial. apply IH; trivial. apply ring_lt. lia.
Qed.

(** * Writing *)
Lemma mark_nodes_spec n seq : forall k fuel i h,
  i < n -> k < n -> (N.to_nat k <= fuel)%nat ->
  let h' := mark_nodes fuel n i ((i + k) mod n) seq h in
  (forall j, j < k -> h' ((i + j) mod n) = (MF_WRITEN, seq)) /\
  (forall x, (forall j, j < k -> x <> (i + j) mod n) -> h' x = h x).
Proof.
  intros k. induction k as [|k IH] using N.peano_ind; intros fuel i h Hi Hk Hf.
  - rewrite N.add_0_r, N.mod_small by lia. cbn zeta.
    assert (mark_nodes fuel n i i seq h = h) as ->.
    { destruct fuel; trivial. cbn [mark_nodes]. now rewrite N.eqb_refl. }
    split; intros; trivial. lia.
  - destruct fuel as [|fuel]; [lia|]. cbn zeta. cbn [mark_nodes].
    assert (i =? (i + N.succ k) mod n = false) as -> by (apply N.eqb_neq; ring_norm; ltbs; lia).
    unfold next_index.
    specialize (IH fuel ((i + 1) mod n) (set_head h i (MF_WRITEN, seq)) (ring_lt n i 1 ltac:(lia)) ltac:(lia) ltac:(lia)).
    cbn zeta in IH. rewrite ring_assoc in IH by lia. replace (1 + k) with (N.succ k) in IH by lia.
    destruct IH as [I1 I2]. split.
    + intros j Hj. destruct (N.eq_dec j 0) as [->|].
      * rewrite N.add_0_r, (N.mod_small i n) by lia. rewrite I2.
        -- unfold set_head. now rewrite N.eqb_refl.
        -- intros j Hj'. rewrite ring_assoc by lia. ring_norm. ltbs; lia.
      * specialize (I1 (j - 1) ltac:(lia)). rewrite ring_assoc in I1 by lia.
        replace (1 + (j - 1)) with j in I1 by lia. exact I1.
    + intros x Hx. rewrite I2.
      * unfold set_head. specialize (Hx 0 ltac:(lia)). rewrite N.add_0_r, N.mod_small in Hx by lia.
        destruct (N.eqb_spec x i); [contradiction | reflexivity].
      * intros j Hj. rewrite ring_assoc by lia. apply Hx. lia.
Qed.

(** The data written by one send. *)
Definition send_data (n w w' : N) (d : N -> N) (m : bytes) : N -> N :=
  let head := node_sz * w in
  let start := head + bhead in
  let room := node_sz * n - node_sz * w - bhead in
  let d1 := write_word (write_bytes d head (repeat 0 16)) head (blen m) in
  let d2 := if negb (w' =? 0) && (w' <? w)
            then let k1 := N.to_nat (if room <? blen m then room else blen m) in
                 write_bytes (write_bytes d1 start (firstn k1 m)) 0 (skipn k1 m)
            else write_bytes d1 start m in
  write_word d2 (head + 8) (fast_check hash m).

Lemma fast_check_lt m : fast_check hash m < two64.
Proof. apply N.mod_lt. discriminate. Qed.

(** Payload bytes, whatever the split. *)
Lemma send_data_spec n w d m :
  let w' := (w + cost m) mod n in
  let d' := send_data n w w' d m in
  w < n -> cost m < n -> 1 <= blen m < 2 ^ 63 ->
  read_word d' (256 * w) = blen m /\
  read_word d' (256 * w + 8) = fast_check hash m /\
  (forall j, j < blen m -> d' (addr n w (16 + j)) = nth (N.to_nat j) m 0) /\
  (forall a, (forall j, j < cost m -> a / 256 <> (w + j) mod n) -> d' a = d a).
Proof.
  intros w' d' Hw Hc Hm. pose proof (cost_bounds m) as [B1 B2].
  assert (L : blen m < two64) by (unfold two64; change (2 ^ 63) with 9223372036854775808 in Hm; lia).
  set (head := node_sz * w) in *. assert (Eh : head = 256 * w) by reflexivity.
  set (room := node_sz * n - node_sz * w - bhead).
  assert (Er : room + 16 + 256 * w = 256 * n) by (unfold room, node_sz, bhead; lia).
  set (d1 := write_word (write_bytes d head (repeat 0 16)) head (blen m)).
  assert (D1w : read_word d1 head = blen m) by (apply read_write_word; assumption).
  assert (D1o : forall x, x < head \/ head + 16 <= x -> d1 x = d x).
  { intros x Hx. unfold d1, write_word. rewrite write_bytes_out by (rewrite blen_word; lia).
    apply write_bytes_out. unfold blen. rewrite repeat_length. lia. }
  (* the payload *)
  set (d2 := if negb (w' =? 0) && (w' <? w)
            then let k1 := N.to_nat (if room <? blen m then room else blen m) in
                 write_bytes (write_bytes d1 (head + bhead) (firstn k1 m)) 0 (skipn k1 m)
            else write_bytes d1 (head + bhead) m).
  assert (W : d' = write_word d2 (head + 8) (fast_check hash m)) by reflexivity.
  assert (Wr : (negb (w' =? 0) && (w' <? w) = true /\ w + cost m > n /\ room < blen m /\ 256 * w + 16 + blen m - 256 * n <= 256 * w) \/
               (negb (w' =? 0) && (w' <? w) = false /\ blen m <= room)).
  { unfold w'. rewrite (ring_add n w (cost m)) by lia. destruct (N.ltb_spec (w + cost m) n).
    - right. split; [|lia]. destruct (N.ltb_spec (w + cost m) w); [lia|]. now rewrite Bool.andb_false_r.
    - destruct (N.eqb_spec (w + cost m - n) 0); cbn [negb andb].
      + right. split; trivial. lia.
      + left. split; [apply N.ltb_lt; lia|]. lia. }
  assert (D2 : (forall j, j < blen m -> d2 (addr n w (16 + j)) = nth (N.to_nat j) m 0) /\
               (forall x, (forall j, j < blen m -> x <> addr n w (16 + j)) -> d2 x = d1 x)).
  { destruct Wr as [(E & A1 & A2 & A3)|(E & A1)]; unfold d2; rewrite E; clear E.
    - rewrite (proj2 (N.ltb_lt _ _)) by lia. cbn zeta.
      assert (F : blen (firstn (N.to_nat room) m) = room) by (rewrite blen_firstn; lia).
      assert (S : blen (skipn (N.to_nat room) m) = blen m - room) by (rewrite blen_skipn; lia).
      split.
      + intros j Hj. rewrite addr_eq by lia. destruct (N.ltb_spec (256 * w + (16 + j)) (256 * n)).
        * rewrite write_bytes_out by (rewrite S; lia). rewrite write_bytes_in by (rewrite ?F; unfold bhead; lia).
          rewrite nth_firstn_lt by (unfold bhead; lia). f_equal. unfold bhead. lia.
        * rewrite write_bytes_in by (rewrite ?S; lia). rewrite nth_skipn_add. f_equal. lia.
      + intros x Hx.
        rewrite write_bytes_out; [rewrite write_bytes_out; trivial|].
        * rewrite F. destruct (N.lt_ge_cases x (head + bhead)); [now left|right].
          destruct (N.le_gt_cases (head + bhead + room) x); trivial. exfalso.
          apply (Hx (x - (head + bhead))); [unfold bhead in *; lia|]. rewrite addr_eq by (unfold bhead in *; lia).
          rewrite (proj2 (N.ltb_lt _ _)); unfold bhead in *; lia.
        * rewrite S. right. destruct (N.le_gt_cases (blen m - room) x); [lia|]. exfalso.
          apply (Hx (x + room)); [lia|]. rewrite addr_eq by lia. rewrite (proj2 (N.ltb_ge _ _)); lia.
    - split.
      + intros j Hj. rewrite addr_eq by lia. rewrite (proj2 (N.ltb_lt _ _)) by lia.
        rewrite write_bytes_in by (unfold bhead; lia). f_equal. unfold bhead. lia.
      + intros x Hx. apply write_bytes_out. destruct (N.lt_ge_cases x (head + bhead)); [now left|right].
        destruct (N.le_gt_cases (head + bhead + blen m) x); trivial. exfalso.
        apply (Hx (x - (head + bhead))); [unfold bhead in *; lia|]. rewrite addr_eq by (unfold bhead in *; lia).
        rewrite (proj2 (N.ltb_lt _ _)); unfold bhead in *; lia. }
  destruct D2 as [D2i D2o].
  assert (NH : forall x, head <= x -> x < head + 16 -> forall j, j < blen m -> x <> addr n w (16 + j)).
  { intros x X1 X2 j Hj. rewrite addr_eq by lia. destruct (N.ltb_spec (256 * w + (16 + j)) (256 * n)); [lia|].
    destruct Wr as [(E & A1 & A2 & A3)|(E & A1)]; lia. }
  rewrite W. repeat split.
  - rewrite <- D1w. apply read_word_ext. intros x X1 X2. unfold write_word.
    rewrite write_bytes_out by lia. apply D2o. apply NH; lia.
  - apply read_write_word, fast_check_lt.
  - intros j Hj. unfold write_word. rewrite write_bytes_out; [now apply D2i|].
    rewrite blen_word. pose proof (NH (addr n w (16 + j))) as X.
    destruct (N.lt_ge_cases (addr n w (16 + j)) (head + 8)); [now left|right].
    destruct (N.le_gt_cases (head + 8 + 8) (addr n w (16 + j))); trivial. exfalso.
    apply (X ltac:(lia) ltac:(lia) j Hj). reflexivity.
  - intros a Ha.
    assert (A0 : a < head \/ head + 16 <= a).
    { specialize (Ha 0 ltac:(lia)). rewrite N.add_0_r, N.mod_small in Ha by lia.
      destruct (N.lt_ge_cases a head); [now left|right]. destruct (N.le_gt_cases (head + 16) a); trivial.
      exfalso. apply Ha. symmetry. apply (N.div_unique a 256 w (a - 256 * w)); lia. }
    unfold write_word. rewrite write_bytes_out by (rewrite blen_word; lia).
    rewrite D2o, D1o; trivial.
    intros j Hj E. apply (Ha ((16 + j) / 256)).
    + apply N.div_lt_upper_bound; lia.
    + rewrite E. apply addr_node. lia.
Qed.

Lemma used_app q m : used (q ++ [m]) = used q + cost m.
Proof. induction q as [|a q IH]; cbn [app used fold_right]; [lia|]. fold (used (q ++ [m])). fold (used q). lia. Qed.

Lemma avail_spec n p r u : r < n -> u < n -> available n p r ((r + u) mod n) = n - 1 - u - p.
Proof.
  intros. unfold available.
  assert (E : (r + n - (r + u) mod n - 1) mod n = n - 1 - u).
  { rewrite (ring_add n r u) by lia. destruct (N.ltb_spec (r + u) n).
    - replace (r + n - (r + u) - 1) with (n - 1 - u) by lia. apply N.mod_small. lia.
    - replace (r + n - (r + u - n) - 1) with ((n - 1 - u) + 1 * n) by lia. rewrite N.mod_add by lia. apply N.mod_small. lia. }
  rewrite E. ltbs; lia.
Qed.

Lemma send_real_eq c m :
  send_real hash c m =
  if blen m =? 0 then (OK, c)
  else if ch_n c - ch_p c <=? calc_nodes (blen m) then (E_BUFF_LIMIT, c)
  else if available (ch_n c) (ch_p c) (ch_r c) (ch_w c) <? calc_nodes (blen m) then (E_BUFF_LIMIT, with_seq c (fetch_seq (ch_seq c)))
  else
    let seq := fetch_seq (ch_seq c) in
    let w' := (ch_w c + calc_nodes (blen m)) mod ch_n c in
    let h0 := set_head (ch_heads c) (ch_w c) (MF_START, seq) in
    let h1 := mark_nodes (N.to_nat (ch_n c)) (ch_n c) ((ch_w c + 1) mod ch_n c) w' seq h0 in
    let h2 := set_flag h1 (ch_w c) (N.lor (fst (h1 (ch_w c))) MF_WRITEN) in
    let c' := with_written (with_seq c seq) w' h2 (send_data (ch_n c) (ch_w c) w' (ch_data c) m) in
    if snd (h2 (ch_w c)) =? seq then (OK, c') else (E_BLOCK_CSEQ, c').
Proof. reflexivity. Qed.

Lemma send_real_spec c q m :
  inv c q -> blen m < 2 ^ 63 ->
  exists c', send_real hash c m = (match fst (queue_step (ch_n c) (ch_p c) q (Send m)) with Sent x => x | _ => OK end, c') /\
             inv c' (snd (queue_step (ch_n c) (ch_p c) q (Send m))) /\ ch_n c' = ch_n c /\ ch_p c' = ch_p c.
Proof.
  intros I L. pose proof I as [Hn Hp Hre Hr Hw Hu Hl]. rewrite send_real_eq. unfold queue_step.
  destruct (N.eqb_spec (blen m) 0) as [|L0]; [exists c; split; [reflexivity|split; [exact I|split; reflexivity]]|].
  rewrite calc_nodes_cost by assumption. pose proof (cost_pos m) as C1. pose proof (layout_end _ _ _ _ _ _ Hr Hl) as Ew.
  destruct (N.leb_spec (ch_n c - ch_p c) (cost m)).
  { rewrite (proj2 (N.leb_gt _ _)) by lia. exists c. split; [reflexivity|split; [exact I|split; reflexivity]]. }
  assert (Ea : available (ch_n c) (ch_p c) (ch_r c) (ch_w c) = ch_n c - 1 - used q - ch_p c) by (rewrite Ew; apply avail_spec; lia).
  rewrite Ea. clear Ea.
  destruct (N.leb_spec (used q + cost m + ch_p c + 1) (ch_n c)) as [G|G].
  2:{ rewrite (proj2 (N.ltb_lt _ _)) by lia. eexists. split; [reflexivity|]. split; [|split; reflexivity]. constructor; cbn; trivial. }
  rewrite (proj2 (N.ltb_ge _ _)) by lia.
  set (seq := fetch_seq (ch_seq c)). set (w := ch_w c) in *. cbv zeta. set (w' := (w + cost m) mod ch_n c).
  set (h0 := set_head (ch_heads c) w (MF_START, seq)).
  set (h1 := mark_nodes (N.to_nat (ch_n c)) (ch_n c) ((w + 1) mod ch_n c) w' seq h0).
  pose proof (mark_nodes_spec (ch_n c) seq (cost m - 1) (N.to_nat (ch_n c)) ((w + 1) mod ch_n c) h0
               (ring_lt (ch_n c) w 1 ltac:(lia)) ltac:(lia) ltac:(lia)) as M.
  cbn zeta in M. rewrite ring_assoc in M by lia. replace (1 + (cost m - 1)) with (cost m) in M by lia. fold w' in M. fold h1 in M.
  destruct M as [M1 M2].
  assert (Hw1 : h1 w = (MF_START, seq)).
  { rewrite M2; [unfold h0, set_head; now rewrite N.eqb_refl|].
    intros j Hj. rewrite ring_assoc by lia. ring_norm. ltbs; lia. }
  set (h2 := set_flag h1 w (N.lor (fst (h1 w)) MF_WRITEN)).
  assert (Hw2 : h2 w = (3, seq)).
  { unfold h2, set_flag, set_head. rewrite N.eqb_refl, Hw1. reflexivity. }
  rewrite Hw2. cbn [snd]. rewrite N.eqb_refl. eexists. split; [reflexivity|].
  pose proof (send_data_spec (ch_n c) w (ch_data c) m ltac:(assumption) ltac:(lia) ltac:(lia)) as D.
  cbn zeta in D. fold w' in D. destruct D as (D1 & D2 & D3 & D4).
  assert (X : forall j, 1 <= j < cost m -> h2 ((w + j) mod ch_n c) = (1, seq)).
  { intros j Hj. unfold h2, set_flag, set_head.
    assert ((w + j) mod ch_n c =? w = false) as -> by (apply N.eqb_neq; ring_norm; ltbs; lia).
    specialize (M1 (j - 1) ltac:(lia)). rewrite ring_assoc in M1 by lia. replace (1 + (j - 1)) with j in M1 by lia. exact M1. }
  assert (Y : forall x, (forall j, j < cost m -> x <> (w + j) mod ch_n c) -> h2 x = ch_heads c x).
  { intros x Hx. pose proof (Hx 0 ltac:(lia)) as Hx0. rewrite N.add_0_r, N.mod_small in Hx0 by lia.
    unfold h2, set_flag, set_head. destruct (N.eqb_spec x w); [contradiction|].
    rewrite M2.
    - unfold h0, set_head. destruct (N.eqb_spec x w); [contradiction|reflexivity].
    - intros j Hj. rewrite ring_assoc by lia. apply Hx. lia. }
  cbn [snd]. split; [|split; reflexivity].
  constructor; cbn [with_written ch_n ch_p ch_r ch_w ch_heads ch_data with_seq ch_retry]; trivial.
  - apply ring_lt. lia.
  - rewrite used_app. lia.
  - apply layout_snoc; trivial.
    + apply (layout_frame _ (ch_heads c) (ch_data c)); trivial; try lia.
      * intros j Hj. apply Y. intros j' Hj'. rewrite Ew, ring_assoc by lia. ring_norm. ltbs; lia.
      * intros a j Hj Ea. apply D4. intros j' Hj'. rewrite Ea, Ew, ring_assoc by lia. ring_norm. ltbs; lia.
    + exists seq. repeat split; trivial; try lia.
Qed.

Lemma mem_send_spec c q m :
  inv c q -> blen m < 2 ^ 63 ->
  exists c', mem_send hash c m = (match fst (queue_step (ch_n c) (ch_p c) q (Send m)) with Sent x => x | _ => OK end, c') /\
             inv c' (snd (queue_step (ch_n c) (ch_p c) q (Send m))) /\ ch_n c' = ch_n c /\ ch_p c' = ch_p c.
Proof.
  intros I L. destruct (send_real_spec c q m I L) as (c' & E & I' & En).
  exists c'. split; [|split; assumption]. unfold mem_send.
  destruct (N.to_nat (ch_retry c)) eqn:R; [pose proof (inv_retry _ _ I); lia|].
  cbn [send_retry]. rewrite E.
  assert ((match fst (queue_step (ch_n c) (ch_p c) q (Send m)) with Sent x => x | _ => OK end =? E_BLOCK_CSEQ)%Z = false) as ->; trivial.
  unfold queue_step. destruct (_ =? 0); [reflexivity|]. destruct (_ <=? _); reflexivity.
Qed.

(** * Reading *)
Lemma scan_walk n first w seq : forall k t fuel h,
  first < n -> t + k < n -> (N.to_nat k < fuel)%nat ->
  (forall j, t <= j < t + k -> (first + j) mod n <> w /\ snd (h ((first + j) mod n)) = seq /\
                              (j = 0 \/ N.testbit (fst (h ((first + j) mod n))) 1 = false)) ->
  exists h',
    scan_block fuel n first ((first + t) mod n) w seq h =
    scan_block (fuel - N.to_nat k) n first ((first + (t + k)) mod n) w seq h' /\
    (forall x, (forall j, t <= j < t + k -> x <> (first + j) mod n) -> h' x = h x) /\
    (forall x, snd (h' x) = snd (h x)).
Proof.
  intros k. induction k as [|k IH] using N.peano_ind; intros t fuel h Hf Hk Hfu H.
  - exists h. rewrite N.add_0_r. replace (fuel - N.to_nat 0)%nat with fuel by lia. auto.
  - destruct fuel as [|fuel]; [lia|]. destruct (H t ltac:(lia)) as (H1 & H2 & H3).
    cbn [scan_block]. rewrite (proj2 (N.eqb_neq _ _)) by assumption. rewrite H2, N.eqb_refl. cbn [negb].
    assert (negb ((first + t) mod n =? first) && N.testbit (fst (h ((first + t) mod n))) 1 = false) as ->.
    { destruct H3 as [-> | ->]; [|apply Bool.andb_false_r]. rewrite N.add_0_r, N.mod_small, N.eqb_refl by lia. reflexivity. }
    unfold next_index. rewrite ring_assoc by lia.
    destruct (IH (t + 1) fuel (set_flag h ((first + t) mod n) 0) Hf ltac:(lia) ltac:(lia)) as (h' & E & F & G).
    { intros j Hj. destruct (H j ltac:(lia)) as (J1 & J2 & J3). unfold set_flag, set_head.
      assert ((first + j) mod n =? (first + t) mod n = false) as ->.
      { apply N.eqb_neq. intros X. apply ring_inj in X; lia. }
      auto. }
    exists h'. replace (t + 1 + k) with (t + N.succ k) in * by lia. split; [|split].
    + rewrite E. f_equal. lia.
    + intros x Hx. rewrite F; [|intros; apply Hx; lia]. unfold set_flag, set_head.
      destruct (N.eqb_spec x ((first + t) mod n)); trivial. exfalso. apply (Hx t); trivial; lia.
    + intros x. rewrite G. unfold set_flag, set_head. destruct (N.eqb_spec x ((first + t) mod n)); [subst x|]; reflexivity.
Qed.

(** Reading one whole block. *)
Lemma scan_whole n h d i w m q :
  i < n -> w < n -> used (m :: q) < n -> layout n h d i w (m :: q) ->
  exists h', scan_block (S (N.to_nat n)) n i i w (snd (h i)) h = ((i + cost m) mod n, h') /\
             (forall x, (forall j, j < cost m -> x <> (i + j) mod n) -> h' x = h x).
Proof.
  intros Hi Hw Hu HL. pose proof (layout_end _ _ _ _ _ _ Hi HL) as Ew. destruct HL as [(seq & B1 & B2 & B3 & B4 & B5 & B6) HL].
  cbn [used fold_right] in *. fold (used q) in *. pose proof (cost_pos m).
  destruct (scan_walk n i w seq (cost m) 0 (S (N.to_nat n)) h Hi ltac:(lia) ltac:(lia)) as (h' & E & F & G).
  { intros j Hj. assert ((i + j) mod n <> w).
    { rewrite Ew. intros X. destruct (N.eq_dec (cost m + used q) n); [lia|]. apply ring_inj in X; lia. }
    destruct (N.eq_dec j 0) as [->|].
    - rewrite N.add_0_r, N.mod_small in * by lia. rewrite B1. auto.
    - rewrite B2 by lia. auto. }
  rewrite N.add_0_r, N.mod_small, N.add_0_l in E by lia. rewrite B1. cbn [snd].
  exists h'. split; [|intros; apply F; intros; apply H0; lia].
  rewrite E. destruct (S (N.to_nat n) - N.to_nat (cost m))%nat eqn:Ef; [lia|]. cbn [scan_block].
  destruct q as [|m2 q].
  - cbn in HL. rewrite HL, N.eqb_refl. reflexivity.
  - destruct HL as [(seq2 & C1 & C2 & _) _]. cbn [used fold_right] in Ew, Hu. fold (used q) in Ew, Hu. pose proof (cost_pos m2).
    assert (X : (i + cost m) mod n <> w).
    { rewrite Ew. intros X. apply ring_inj in X; lia. }
    rewrite (proj2 (N.eqb_neq _ _) X).
    rewrite F by (intros j Hj Y; apply ring_inj in Y; lia).
    rewrite C1. cbn [fst snd]. destruct (seq2 =? seq); cbn [negb]; trivial.
    assert ((i + cost m) mod n =? i = false) as -> by (apply N.eqb_neq; ring_norm; ltbs; lia).
    reflexivity.
Qed.

Lemma read_block n d i m :
  i < n -> blen m + 16 <= 256 * n ->
  (forall j, j < blen m -> d (addr n i (16 + j)) = nth (N.to_nat j) m 0) ->
  (let room := node_sz * n - node_sz * i - bhead in
   if blen m <=? room then read_bytes d (node_sz * i + bhead) (N.to_nat (blen m))
   else read_bytes d (node_sz * i + bhead) (N.to_nat room) ++ read_bytes d 0 (N.to_nat (blen m - room))) = m.
Proof.
  intros Hi Hb H. cbn zeta. set (room := node_sz * n - node_sz * i - bhead).
  assert (Er : room + 16 + 256 * i = 256 * n) by (unfold room, node_sz, bhead; lia).
  destruct (N.leb_spec (blen m) room).
  - assert (N.to_nat (blen m) = length m) as -> by (unfold blen; lia).
    apply read_bytes_spec. intros j Hj. rewrite <- H by assumption. rewrite addr_eq by lia.
    rewrite (proj2 (N.ltb_lt _ _)) by lia. f_equal. unfold node_sz, bhead. lia.
  - transitivity (firstn (N.to_nat room) m ++ skipn (N.to_nat room) m); [|apply firstn_skipn]. f_equal.
    + replace (N.to_nat room) with (length (firstn (N.to_nat room) m)) at 1 by (rewrite firstn_length; unfold blen in *; lia).
      apply read_bytes_spec. rewrite blen_firstn by lia. intros j Hj.
      rewrite nth_firstn_lt by lia. rewrite <- H by lia. rewrite addr_eq by lia.
      rewrite (proj2 (N.ltb_lt _ _)) by lia. f_equal. unfold node_sz, bhead. lia.
    + replace (N.to_nat (blen m - room)) with (length (skipn (N.to_nat room) m)) by (rewrite skipn_length; unfold blen in *; lia).
      apply read_bytes_spec. rewrite blen_skipn. intros j Hj. rewrite nth_skipn_add.
      replace (N.to_nat room + N.to_nat j)%nat with (N.to_nat (room + j)) by lia.
      rewrite <- H by lia. rewrite addr_eq by lia. rewrite (proj2 (N.ltb_ge _ _)) by lia. f_equal. lia.
Qed.

Lemma mem_recv_spec c q clk cap :
  inv c q ->
  exists c', mem_recv hash c clk cap =
    match fst (queue_step (ch_n c) (ch_p c) q (Recv cap)) with Got r b s => Done r b s c' | _ => Fault end /\
    inv c' (snd (queue_step (ch_n c) (ch_p c) q (Recv cap))) /\ ch_n c' = ch_n c /\ ch_p c' = ch_p c.
Proof.
  intros I. pose proof I as [Hn Hp Hre Hr Hw Hu Hl]. unfold mem_recv, mem_recv_fuel.
  rewrite (proj2 (N.leb_gt _ _)) by assumption.
  cbn [recv_loop]. unfold recv_pass. cbn [rs_cur rs_heads rs_fft rs_ret rs_tmo rs_clk rs_size].
  destruct q as [|m q].
  - cbn in Hl. rewrite Hl, N.eqb_refl. cbn. eexists. split; [reflexivity|]. split; [|split; reflexivity].
    constructor; cbn; trivial; try lia.
  - pose proof (layout_end _ _ _ _ _ _ Hr Hl) as Ew. pose proof (cost_pos m) as C1. pose proof (cost_bounds m) as [C2 C3].
    pose proof Hl as [B HL].
    assert (Hu' : cost m + used q + ch_p c + 1 <= ch_n c) by exact Hu.
    assert (X : ch_r c =? ch_w c = false).
    { apply N.eqb_neq. rewrite Ew. cbn [used fold_right]. fold (used q). ring_norm. ltbs; lia. }
    rewrite X.
    assert (Hu2 : used (m :: q) < ch_n c) by (cbn [used fold_right]; fold (used q); lia).
    pose proof (scan_whole _ _ _ _ _ _ _ Hr Hw Hu2 Hl) as SW.
    destruct B as (seq & B1 & B2 & B3 & B4 & B5 & B6). rewrite B1 in SW |- *. cbn [snd] in SW.
    change (N.testbit 3 0) with true. change (N.testbit 3 1) with true. cbn [negb]. change ((OK =? 0)%Z) with true. cbn [negb].
    change (node_sz * ch_r c) with (256 * ch_r c). rewrite B3.
    assert (((blen m =? 0) || (node_sz * ch_n c - node_sz * ch_p c <=? blen m)) = false) as ->.
    { apply Bool.orb_false_iff. unfold node_sz. split; [apply N.eqb_neq|apply N.leb_gt]; lia. }
    cbn [queue_step]. destruct (cap <? blen m).
    + cbn. eexists. split; [reflexivity|]. split; [|split; reflexivity].
      constructor; cbn; trivial; try lia.
    + destruct SW as (h' & E & F). rewrite E.
      rewrite calc_nodes_cost by lia. unfold range_count.
      assert (((ch_r c + cost m) mod ch_n c + ch_n c - ch_r c) mod ch_n c = cost m) as ->.
      { rewrite ring_add by lia. destruct (N.ltb_spec (ch_r c + cost m) (ch_n c)).
        - replace (ch_r c + cost m + ch_n c - ch_r c) with (cost m + 1 * ch_n c) by lia. rewrite N.mod_add, N.mod_small; lia.
        - replace (ch_r c + cost m - ch_n c + ch_n c - ch_r c) with (cost m) by lia. rewrite N.mod_small; lia. }
      rewrite N.eqb_refl. cbn [rs_cur rs_heads rs_fft rs_ret rs_tmo rs_clk rs_size].
      change ((OK =? 0)%Z) with true. cbn [negb].
      change (node_sz * ch_r c) with (256 * ch_r c). rewrite B3, B4.
      pose proof (read_block (ch_n c) (ch_data c) (ch_r c) m Hr ltac:(lia) B5) as RB.
      cbn zeta in RB. change (node_sz * ch_r c) with (256 * ch_r c) in RB. rewrite RB.
      rewrite N.eqb_refl. eexists. split; [reflexivity|]. split; [|split; reflexivity].
      constructor; cbn [with_read ch_n ch_p ch_retry ch_r ch_w ch_heads ch_data snd]; trivial; try lia.
      apply (layout_frame _ (ch_heads c) (ch_data c)); trivial; try lia.
      intros j Hj. rewrite ring_assoc by lia. apply F. intros j' Hj' Y. apply ring_inj in Y; lia.
Qed.

Lemma chan_run_spec os : forall c q,
  inv c q -> (forall m, In (CSend m) os -> blen m < 2 ^ 63) ->
  exists c', chan_run hash c os =
    Some (fst (queue_run (ch_n c) (ch_p c) q (map (fun o => match o with CSend m => Send m | CRecv _ cap => Recv cap end) os)), c') /\
    inv c' (snd (queue_run (ch_n c) (ch_p c) q (map (fun o => match o with CSend m => Send m | CRecv _ cap => Recv cap end) os))) /\
    ch_n c' = ch_n c /\ ch_p c' = ch_p c.
Proof.
  induction os as [|o os IH]; intros c q I H; [now exists c|].
  cbn [map chan_run queue_run].
  assert (S : exists c1, chan_step hash c o = Some (fst (queue_step (ch_n c) (ch_p c) q (match o with CSend m => Send m | CRecv _ cap => Recv cap end)), c1)
     /\ inv c1 (snd (queue_step (ch_n c) (ch_p c) q (match o with CSend m => Send m | CRecv _ cap => Recv cap end))) /\ ch_n c1 = ch_n c /\ ch_p c1 = ch_p c).
  { destruct o as [m|clk cap]; cbn [chan_step].
    - destruct (mem_send_spec c q m I) as (c1 & E & I1 & En); [apply H; now left|].
      exists c1. rewrite E. split; [|split; assumption].
      cbn [queue_step]. destruct (_ =? 0); [reflexivity|]. destruct (_ <=? _); reflexivity.
    - destruct (mem_recv_spec c q clk cap I) as (c1 & E & I1 & En). exists c1. rewrite E. split; [|split; assumption].
      cbn [queue_step]. destruct q; [reflexivity|]. destruct (_ <? _); reflexivity. }
  destruct S as (c1 & E1 & I1 & En & Ep). rewrite E1.
  destruct (IH c1 _ I1) as (c2 & E2 & I2 & En2 & Ep2); [intros; apply H; now right|].
  rewrite E2, En, Ep. rewrite En, Ep in I2. rewrite En in En2. rewrite Ep in Ep2.
  destruct (queue_step (ch_n c) (ch_p c) q _) as [x q1]. cbn [fst snd] in *.
  destruct (queue_run (ch_n c) (ch_p c) q1 _) as [xs q2]. cbn [fst snd] in *. now exists c2.
Qed.

Lemma init_inv len c : mem_init len = (OK, Some c) -> len < 2 ^ 48 -> inv c [] /\ ch_n c = (len - 4096) / 272 /\ ch_p c = default_protect ((len - 4096) / 272).
Proof.
  unfold mem_init. destruct (N.ltb_spec len (4096 + node_sz + 16)); [discriminate|]. intros E L. injection E as <-. cbn.
  change (node_sz + 16) with 272. unfold node_sz in *.
  assert (1 <= (len - 4096) / 272) by (apply N.div_le_lower_bound; lia).
  assert ((len - 4096) / 272 < 2 ^ 40).
  { apply N.div_lt_upper_bound; [lia|]. change (2 ^ 48) with 281474976710656 in L. change (2 ^ 40) with 1099511627776. lia. }
  assert (default_protect ((len - 4096) / 272) < (len - 4096) / 272).
  { unfold default_protect. assert ((len - 4096) / 272 / 128 < (len - 4096) / 272) by (apply N.div_lt; lia).
    destruct (_ <? _) eqn:E; trivial. apply N.ltb_lt in E. lia. }
  split; [|split; reflexivity]. constructor; cbn; trivial; try lia.
Qed.
End Hash.
