(** What the stores of one send amount to. *)
From Verif Require Import Base MemSpec Mem MemProof MemConc MemConcLib.
Local Open Scope N_scope.
Local Ltac Zify.zify_post_hook ::= idtac.

Section S.
Variables (n : N) (hash : bytes -> N).
Variables (w k sq : N) (m : bytes).
Hypothesis Hw : w < n.
Hypothesis Hk : 1 <= k < n.
Hypothesis Hm : blen m + 16 <= 256 * k.

Lemma payload_addr_eq j : j < blen m -> payload_addr n w j = addr n w (16 + j).
Proof.
  intros. rewrite addr_eq by lia. unfold payload_addr. cbv zeta.
  replace (256 * w + (16 + j)) with (256 * w + 16 + j) by lia. reflexivity.
Qed.
Lemma payload_inj x y : x < blen m -> y < blen m -> payload_addr n w x = payload_addr n w y -> x = y.
Proof. intros. unfold payload_addr in *. cbv zeta in *. ltbs; lia. Qed.
Lemma payload_head x a : x < blen m -> a < 16 -> payload_addr n w x <> 256 * w + a.
Proof. intros. unfold payload_addr. cbv zeta. ltbs; lia. Qed.

Definition flag_ok (i v : N) : Prop := (i = w /\ v = MF_START) \/ (v = MF_WRITEN /\ exists t, 1 <= t < k /\ i = (w + t) mod n).

Lemma head_node a : a < 256 -> (256 * w + a) / 256 = (w + 0) mod n.
Proof.
  intros. rewrite N.add_0_r, N.mod_small by lia. symmetry. apply (N.div_unique _ 256 w a); lia.
Qed.
Lemma mark_range c v : In (c, v) (mark_stores (N.to_nat n) n (next_index n w 1) (next_index n w k) sq) ->
  exists t, 1 <= t < k /\ ((c = CFlag ((w + t) mod n) /\ v = MF_WRITEN) \/ (c = CSeq ((w + t) mod n) /\ v = sq)).
Proof.
  unfold next_index. replace ((w + k) mod n) with (((w + 1) mod n + (k - 1)) mod n) by (rewrite ring_assoc by lia; f_equal; lia).
  intros H. apply mark_in in H; try lia; try (apply ring_lt; lia). destruct H as (t & Ht & H).
  rewrite ring_assoc in H by lia. exists (1 + t). split; [lia|exact H].
Qed.

Lemma block_in c v : In (c, v) (block_stores n hash w k sq m) ->
  (exists t, t < k /\ cnode c = (w + t) mod n) /\
  match c with CFlag i => flag_ok i v | CSeq i => v = sq | CData _ => True end.
Proof.
  unfold block_stores. rewrite !in_app_iff. intros H.
  assert (D : forall a, (exists t, t < k /\ a / 256 = (w + t) mod n) -> c = CData a ->
     (exists t, t < k /\ cnode c = (w + t) mod n) /\ match c with CFlag i => flag_ok i v | CSeq i => v = sq | CData _ => True end).
  { intros a Ha ->. split; [exact Ha|trivial]. }
  destruct H as [H|[H|[H|[H|[H|[H|H]]]]]].
  - apply stores_in in H. destruct H as (i & Hi & Hc & _). unfold blen in Hi. rewrite repeat_length in Hi.
    apply (D (256 * w + i)); trivial. exists 0. split; [lia|]. apply head_node. lia.
  - apply stores_in in H. destruct H as (i & Hi & Hc & _). rewrite blen_word in Hi.
    apply (D (256 * w + i)); trivial. exists 0. split; [lia|]. apply head_node. lia.
  - cbn [In] in H. destruct H as [[= <- <-]|[[= <- <-]|[]]]; (split; [exists 0; split; [lia|]; cbn; rewrite N.add_0_r, N.mod_small; lia|]); trivial.
    left. auto.
  - apply mark_range in H. destruct H as (t & Ht & [[-> ->]|[-> ->]]); (split; [exists t; split; [lia|reflexivity]|]); trivial.
    right. split; trivial. exists t. auto.
  - apply stores_in in H. destruct H as (i & Hi & Hc & _). rewrite blen_word in Hi.
    apply (D (256 * w + i)); trivial. exists 0. split; [lia|]. apply head_node. lia.
  - apply stores_in in H. destruct H as (i & Hi & Hc & _).
    apply (D _) in Hc; trivial. rewrite payload_addr_eq by lia. exists ((16 + i) / 256). split; [apply N.div_lt_upper_bound; lia|].
    apply addr_node. lia.
  - apply stores_in in H. destruct H as (i & Hi & Hc & _). rewrite blen_word in Hi.
    apply (D (256 * w + 8 + i)); trivial. exists 0. split; [lia|]. rewrite <- N.add_assoc. apply head_node. lia.
Qed.

Lemma data_no a f j bs : (forall i, j <= i < j + blen bs -> f i <> CData a) -> look (stores_at f j bs) (CData a) = None.
Proof. intros H. apply look_none. intros v Hin. apply stores_in in Hin. destruct Hin as (i & Hi & Hc & _). symmetry in Hc. now apply H in Hc. Qed.
Lemma stores_other f j bs c : (forall i, f i <> c) -> look (stores_at f j bs) c = None.
Proof. intros H. apply look_none. intros v Hin. apply stores_in in Hin. destruct Hin as (i & _ & Hc & _). symmetry in Hc. now apply H in Hc. Qed.

Lemma block_look_flag0 : look (block_stores n hash w k sq m) (CFlag w) = Some MF_START.
Proof.
  unfold block_stores, word_stores. rewrite !look_app. rewrite !stores_other by discriminate.
  rewrite look_none.
  - cbn. now rewrite N.eqb_refl.
  - intros v H. apply mark_range in H. destruct H as (t & Ht & [[H _]|[H _]]); [|discriminate].
    injection H as H. revert H. ring_norm. ltbs; lia.
Qed.
Lemma block_look_flag t : 1 <= t < k -> look (block_stores n hash w k sq m) (CFlag ((w + t) mod n)) = Some MF_WRITEN.
Proof.
  intros Ht. unfold block_stores, word_stores. rewrite !look_app. rewrite !stores_other by discriminate.
  unfold next_index. replace ((w + k) mod n) with (((w + 1) mod n + (k - 1)) mod n) by (rewrite ring_assoc by lia; f_equal; lia).
  destruct (mark_look n sq (k - 1) (N.to_nat n) ((w + 1) mod n) (t - 1)) as [A _]; try lia; try (apply ring_lt; lia).
  rewrite (ring_assoc n w 1 (t - 1)) in A by lia. replace (1 + (t - 1)) with t in A by lia. now rewrite A.
Qed.
Lemma block_look_seq t : t < k -> look (block_stores n hash w k sq m) (CSeq ((w + t) mod n)) = Some sq.
Proof.
  intros Ht. unfold block_stores, word_stores. rewrite !look_app. rewrite !stores_other by discriminate.
  destruct (N.eq_dec t 0) as [->|Ne].
  - rewrite N.add_0_r, (N.mod_small w n) by lia. rewrite look_none.
    + cbn. now rewrite N.eqb_refl.
    + intros v H. apply mark_range in H. destruct H as (t & Ht' & [[H _]|[H _]]); [discriminate|].
      injection H as H. revert H. ring_norm. ltbs; lia.
  - unfold next_index. replace ((w + k) mod n) with (((w + 1) mod n + (k - 1)) mod n) by (rewrite ring_assoc by lia; f_equal; lia).
    destruct (mark_look n sq (k - 1) (N.to_nat n) ((w + 1) mod n) (t - 1)) as [_ A]; try lia; try (apply ring_lt; lia).
    rewrite (ring_assoc n w 1 (t - 1)) in A by lia. replace (1 + (t - 1)) with t in A by lia. now rewrite A.
Qed.
Lemma block_look_size j : j < 8 -> look (block_stores n hash w k sq m) (CData (256 * w + j)) = Some (nth (N.to_nat j) (word_bytes 8 (blen m)) 0).
Proof.
  intros Hj. unfold block_stores, word_stores. rewrite !look_app.
  rewrite (data_no _ (fun j => CData (256 * w + 8 + j))) by (rewrite blen_word; intros i Hi [= E]; lia).
  rewrite (data_no _ (fun j => CData (payload_addr n w j))) by (intros i Hi E; injection E as E; revert E; apply payload_head; lia).
  rewrite (stores_look (fun j => CData (256 * w + j)) (word_bytes 8 (blen m)) 0) by (rewrite ?blen_word; try lia; intros x y ? ? [= E]; lia).
  rewrite N.sub_0_r. reflexivity.
Qed.
Lemma block_look_check j : j < 8 -> look (block_stores n hash w k sq m) (CData (256 * w + 8 + j)) = Some (nth (N.to_nat j) (word_bytes 8 (fast_check hash m)) 0).
Proof.
  intros Hj. unfold block_stores, word_stores. rewrite !look_app.
  rewrite (stores_look (fun j => CData (256 * w + 8 + j)) (word_bytes 8 (fast_check hash m)) 0) by (rewrite ?blen_word; try lia; intros x y ? ? [= E]; lia).
  rewrite N.sub_0_r. reflexivity.
Qed.
Lemma block_look_payload j : j < blen m -> look (block_stores n hash w k sq m) (CData (payload_addr n w j)) = Some (nth (N.to_nat j) m 0).
Proof.
  intros Hj. unfold block_stores, word_stores. rewrite !look_app.
  rewrite (data_no _ (fun j => CData (256 * w + 8 + j))).
  2:{ rewrite blen_word. intros i Hi E. injection E as E. symmetry in E. revert E. rewrite <- N.add_assoc. apply payload_head; lia. }
  rewrite (stores_look (fun j => CData (payload_addr n w j)) m 0).
  - rewrite N.sub_0_r. reflexivity.
  - intros x y Hx Hy E. injection E as E. apply payload_inj in E; lia.
  - lia.
Qed.
End S.
