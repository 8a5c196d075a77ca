(** Sequence numbers are fresh as long as fewer than 2^32 - 1 were handed out; stores of
    a writer stay inside its own block. *)
From Verif Require Import Base MemSpec Mem MemProof MemConc MemConcLib MemConcStores MemConcInv MemConcSpec MemConcProof MemConcRead.
Local Open Scope N_scope.
Local Ltac Zify.zify_post_hook ::= idtac.

Section P.
Variables (n p timeout : N) (hash : bytes -> N).
Notation Inv := (Inv n p hash).

Definition seqle (s : st) : Prop :=
  (forall y, s_mem s (CSeq y) <= s_seq s) /\
  (forall i o q, nth_error (s_ops s) i = Some o -> holds o = Some q -> q <= s_seq s) /\
  (forall b B, nth_error (s_blks s) b = Some B -> b_seq B <= s_seq s).

(** [fair] with the freshness clause replaced by a bound on the sequence counter. *)
Lemma fair_of l s : seqle s -> fair_bounded n l s -> fair n l s.
Proof.
  intros (S1 & S2 & S3) F. unfold fair_bounded, fair in *. destruct l as [m t|i weak|cap|now]; trivial.
  destruct (nth_error (s_ops s) i) as [o|] eqn:E; trivial. destruct (o_pc o); trivial.
  rewrite N.mod_small by lia. split; [|split].
  - intros y _ X. specialize (S1 y). lia.
  - intros j oj Ej X. specialize (S2 j oj _ Ej X). lia.
  - intros b B EB _ X. specialize (S3 b B EB). lia.
Qed.

Lemma seq_step l s s' : Inv s -> fair_bounded n l s -> seqle s -> step n p timeout hash l s = Some s' -> seqle s'.
Proof.
  intros V F (S1 & S2 & S3) H.
  assert (Keep : forall s1, s_mem s1 = s_mem s -> s_ops s1 = s_ops s -> s_blks s1 = s_blks s -> s_seq s1 = s_seq s -> seqle s1).
  { intros s1 E1 E2 E3 E4. unfold seqle. rewrite E1, E2, E3, E4. auto. }
  destruct l as [m t|i weak|cap|now]; cbn [step] in H.
  - apply Some_inj in H. subst s'. split; [exact S1|]. split; [|exact S3]. cbn [with_ops s_ops s_seq]. intros j oj q Ej X.
    rewrite nth_error_snoc in Ej. destruct (Nat.eqb_spec j (length (s_ops s))); [injection Ej as <-; discriminate|eauto].
  - unfold wstep in H. cbn [fair_bounded] in F. destruct (nth_error (s_ops s) i) as [o|] eqn:E; [|discriminate].
    pose proof (v_ops _ _ _ _ V) as (O1 & _). destruct (O1 i o E) as [[Q1 Q2] _].
    assert (Op : forall s1 o', s_mem s1 = s_mem s -> s_ops s1 = s_ops s -> s_seq s1 = s_seq s ->
      (forall b B, nth_error (s_blks s1) b = Some B -> b_seq B <= s_seq s) ->
      (holds o' = None \/ exists q, holds o' = Some q /\ q <= s_seq s) -> seqle (with_op s1 i o')).
    { intros s1 o' E1 E2 E3 E4 Hh. unfold seqle. cbn [with_op s_mem s_ops s_blks s_seq]. rewrite E1, E2, E3. split; trivial. split; trivial.
      intros j oj q Ej X. rewrite (nth_error_set_nth _ _ _ _ _ E) in Ej. destruct (Nat.eqb_spec j i); [|eauto].
      injection Ej as <-. destruct Hh as [Hh|(q' & Hh & L)]; [congruence|]. rewrite Hh in X. injection X as <-. exact L. }
    assert (Hold : forall q, holds o = Some q -> q <= s_seq s) by (intros q; eauto).
    destruct (o_pc o) as [ |sq|sq wl gw|sq wl gw gr|b w sq todo|b w sq f|w sq|code] eqn:Epc.
    + destruct (_ =? 0); [apply Some_inj in H; subst s'; apply Op; auto|].
      destruct (_ <=? _); [apply Some_inj in H; subst s'; apply Op; auto|].
      rewrite N.mod_small in H by exact F. rewrite (proj2 (N.eqb_neq _ _)) in H by lia. apply Some_inj in H; subst s'. unfold seqle.
      cbn [with_op with_opseq s_mem s_ops s_blks s_seq]. split; [|split].
      * intros y. specialize (S1 y). lia.
      * intros j oj q Ej X. rewrite (nth_error_set_nth _ _ _ _ _ E) in Ej. destruct (Nat.eqb_spec j i).
        -- injection Ej as <-. injection X as <-. lia.
        -- specialize (S2 j oj q Ej X). lia.
      * intros b B EB. specialize (S3 b B EB). lia.
    + apply Some_inj in H; subst s'. apply Op; trivial. right. exists sq. split; trivial. apply Hold. unfold holds. now rewrite Epc.
    + destruct (_ <? _); apply Some_inj in H; subst s'; apply Op; auto. right. exists sq. split; trivial. apply Hold. unfold holds. now rewrite Epc.
    + assert (Hs : sq <= s_seq s) by (apply Hold; unfold holds; now rewrite Epc).
      destruct (_ && _); apply Some_inj in H; subst s'; apply Op; auto.
      * cbn [with_w s_blks]. intros b B EB. rewrite nth_error_snoc in EB. destruct (Nat.eqb_spec b (length (s_blks s))); [injection EB as <-; exact Hs|eauto].
      * right. exists sq. auto.
    + destruct todo as [|[c v] todo]; apply Some_inj in H; subst s'; [apply Op; auto|].
      destruct Q2 as (B & Q2 & Q4 & Q5 & Q6 & Q7 & Q8). unfold upd_blk. cbn [with_mem s_blks]. rewrite Q2.
      pose proof (v_core _ _ _ _ V) as V1. pose proof (c_n _ _ _ _ _ _ _ _ V1) as Hn.
      pose proof (c_blk _ _ _ _ _ _ _ _ V1 b B Q2) as [Ft _]. pose proof (fits_hyps n p hash (b_msg B) (b_pos B) (proj1 Hn) Ft) as (P1 & P2 & P3).
      assert (Hin : In (c, v) (stores_of n hash B)) by (rewrite <- Q8; apply in_or_app; right; now left).
      unfold stores_of in Hin. apply block_in in Hin; trivial. destruct Hin as [_ Hv].
      unfold seqle. cbn [with_op with_blks with_mem with_w s_mem s_ops s_blks s_seq]. split; [|split].
      * intros y. unfold cell_upd. destruct (cell_eqb (CSeq y) c) eqn:Ec; [|apply S1]. destruct c; try discriminate. rewrite Hv. now apply (S3 b).
      * intros j oj q Ej X. rewrite (nth_error_set_nth _ _ _ _ _ E) in Ej. destruct (Nat.eqb_spec j i); [injection Ej as <-; discriminate|eauto].
      * intros b' B' EB'. rewrite (nth_error_set_nth _ _ _ _ _ Q2) in EB'. destruct (Nat.eqb_spec b' b); [injection EB' as <-; exact (S3 b B Q2)|eauto].
    + apply Some_inj in H; subst s'. unfold upd_blk. cbn [with_mem s_blks]. destruct (nth_error (s_blks s) b) as [B|] eqn:EB.
      * unfold seqle. cbn [with_op with_blks with_mem with_w s_mem s_ops s_blks s_seq]. split; [exact S1|]. split.
        -- intros j oj q Ej X. rewrite (nth_error_set_nth _ _ _ _ _ E) in Ej. destruct (Nat.eqb_spec j i); [injection Ej as <-; discriminate|eauto].
        -- intros b' B' EB'. rewrite (nth_error_set_nth _ _ _ _ _ EB) in EB'. destruct (Nat.eqb_spec b' b); [injection EB' as <-; exact (S3 b B EB)|eauto].
      * unfold seqle. cbn [with_op with_mem s_mem s_ops s_blks s_seq]. split; [exact S1|]. split; [|exact S3].
        intros j oj q Ej X. rewrite (nth_error_set_nth _ _ _ _ _ E) in Ej. destruct (Nat.eqb_spec j i); [injection Ej as <-; discriminate|eauto].
    + destruct (_ =? _); [|destruct (o_left o)]; apply Some_inj in H; subst s'; apply Op; auto.
    + discriminate.
  - destruct (s_rd s); try discriminate. apply Some_inj in H. subst s'. now apply Keep.
  - assert (X : s_ops s' = s_ops s /\ s_seq s' = s_seq s /\ (forall y, s_mem s' (CSeq y) = s_mem s (CSeq y)) /\
      (s_blks s' = s_blks s \/ exists x, s_blks s' = skip_at x (s_blks s))).
    { unfold MemConc.rstep in H. destruct (s_rd s); repeat match type of H with context [if ?x then _ else _] => destruct x end;
      try discriminate; apply Some_inj in H; subst s'; (split; [reflexivity|]); (split; [reflexivity|]); (split; [intros y; reflexivity|]);
      first [left; reflexivity|right; eexists; reflexivity]. }
    destruct X as (X1 & X2 & X3 & X4). unfold seqle. rewrite X1, X2. split; [intros y; rewrite X3; apply S1|]. split; [exact S2|].
    destruct X4 as [-> | [x ->]]; [exact S3|]. intros b B' EB. apply skip_nth in EB. destruct EB as (B & EB & (_ & _ & ->) & _). eauto.
Qed.

Lemma reach_bounded s : 1 <= n < 2 ^ 40 -> p + 1 <= n -> reach_b n p timeout hash s -> reach n p timeout hash s.
Proof.
  intros Hn Hp R. cut (reach n p timeout hash s /\ seqle s); [tauto|].
  induction R as [|s l s' R IH F S].
  - split; [constructor|]. split; [intros y; reflexivity|]. split; [intros i o q E|intros b B E]; [destruct i|destruct b]; discriminate.
  - destruct IH as [I1 I2]. pose proof (fair_of l s I2 F) as F'. split; [now apply (reach_step n p timeout hash s l)|].
    apply (seq_step l s); trivial. now apply (reach_inv n p timeout hash).
Qed.

(** A store by a writer lands in the nodes it reserved, which the reader has not
    consumed and no other unconsumed reservation contains. *)
Lemma own_write i weak s s' c : Inv s -> fair n (LW i weak) s -> step n p timeout hash (LW i weak) s = Some s' -> s_mem s' c <> s_mem s c ->
  exists o b B x, nth_error (s_ops s) i = Some o /\ writing o = Some b /\ nth_error (s_blks s) b = Some B /\ o_msg o = b_msg B /\
    b_pos B <= x < b_pos B + cost (b_msg B) /\ node_of c = x mod n /\ s_gr s <= b_pos B /\
    (forall b' B' x', nth_error (s_blks s) b' = Some B' -> b' <> b -> b_pos B' <= x' < b_pos B' + cost (b_msg B') -> s_gr s <= x' -> x' mod n <> x mod n) /\
    (forall j o', nth_error (s_ops s) j = Some o' -> j <> i -> writing o' <> Some b).
Proof.
  intros V F H Nc. cbn [step] in H. unfold wstep in H. cbn [fair] in F. destruct (nth_error (s_ops s) i) as [o|] eqn:E; [|discriminate].
  pose proof (v_core _ _ _ _ V) as V1. pose proof (c_n _ _ _ _ _ _ _ _ V1) as Hn. pose proof (c_room _ _ _ _ _ _ _ _ V1) as Hr.
  pose proof (c_clr _ _ _ _ _ _ _ _ V1) as Hc. pose proof (c_chain _ _ _ _ _ _ _ _ V1) as Hch.
  pose proof (v_ops _ _ _ _ V) as (O1 & _ & O3). destruct (O1 i o E) as [[Q1 Q2] _].
  assert (Core : forall b B x, block_of o = Some b -> nth_error (s_blks s) b = Some B -> b_fin B = false -> b_skip B = false -> b_msg B = o_msg o ->
    b_pos B <= x < bend B -> node_of c = x mod n ->
    exists o0 b B x, Some o = Some o0 /\ writing o0 = Some b /\ nth_error (s_blks s) b = Some B /\ o_msg o0 = b_msg B /\
    b_pos B <= x < b_pos B + cost (b_msg B) /\ node_of c = x mod n /\ s_gr s <= b_pos B /\
    (forall b' B' x', nth_error (s_blks s) b' = Some B' -> b' <> b -> b_pos B' <= x' < b_pos B' + cost (b_msg B') -> s_gr s <= x' -> x' mod n <> x mod n) /\
    (forall j o', nth_error (s_ops s) j = Some o' -> j <> i -> writing o' <> Some b)).
  { intros b B x Eb EB Fi Sk M X Nd. exists o, b, B, x.
    assert (Lp : s_gr s <= b_pos B).
    { destruct (N.le_gt_cases (s_gr s) (b_pos B)) as [|L]; trivial.
      rewrite (c_early _ _ _ _ _ _ _ _ V1 b B EB) in Sk; trivial; [discriminate|lia]. }
    split; trivial. split; [exact Eb|]. split; trivial. split; [auto|]. split; [exact X|]. split; trivial. split; [exact Lp|]. split.
    - intros b' B' x' EB' Nb X' G' Y. apply Nb. pose proof (chain_nth _ _ _ _ _ Hch EB) as [_ Z1]. pose proof (chain_nth _ _ _ _ _ Hch EB') as [_ Z2].
      unfold bend in *. apply (win n x' x (s_gr s)) in Y; try lia. subst x'. apply (chain_uniq _ _ _ _ _ _ _ x Hch EB' EB); unfold bend; lia.
    - intros j o' Ej Nj Y. apply Nj. now apply (O3 j i o' o b). }
  destruct (o_pc o) as [ |sq|sq wl gw|sq wl gw gr|b w sq todo|b w sq f|w sq|code] eqn:Epc.
  - repeat match type of H with context [if ?x then _ else _] => destruct x end; apply Some_inj in H; subst s'; now contradiction Nc.
  - apply Some_inj in H; subst s'; now contradiction Nc.
  - destruct (_ <? _); apply Some_inj in H; subst s'; now contradiction Nc.
  - destruct (_ && _); apply Some_inj in H; subst s'; now contradiction Nc.
  - destruct todo as [|[c' v] todo]; apply Some_inj in H; subst s'; [now contradiction Nc|].
    destruct Q2 as (B & Q2 & Q4 & Q5 & Q6 & Q7 & Q8). revert Nc. unfold upd_blk. cbn [with_mem s_blks]. rewrite Q2.
    cbn [with_op with_blks with_mem with_w s_mem]. unfold cell_upd. destruct (cell_eqb c c') eqn:Ec; [|congruence]. intros _.
    apply cell_eqb_spec in Ec. subst c'.
    pose proof (c_blk _ _ _ _ _ _ _ _ V1 b B Q2) as [Ft _]. pose proof (fits_hyps n p hash (b_msg B) (b_pos B) (proj1 Hn) Ft) as (P1 & P2 & P3).
    assert (Hin : In (c, v) (stores_of n hash B)) by (rewrite <- Q8; apply in_or_app; right; now left).
    unfold stores_of in Hin. apply block_in in Hin; trivial. destruct Hin as [(t & Ht & Hnd) _].
    rewrite N.add_mod_idemp_l in Hnd by lia.
    apply (Core b B (b_pos B + t)); trivial; [unfold block_of; now rewrite Epc|now apply F|unfold bend; lia].
  - destruct Q2 as (B & Q2 & Q4 & Q5 & Q6 & Q7 & Q8 & Q9). apply Some_inj in H; subst s'. revert Nc. unfold upd_blk. cbn [with_mem s_blks]. rewrite Q2.
    cbn [with_op with_blks with_mem with_w s_mem]. unfold cell_upd. destruct (cell_eqb c (CFlag w)) eqn:Ec; [|congruence]. intros _.
    apply cell_eqb_spec in Ec. subst c. pose proof (cost_pos (b_msg B)).
    apply (Core b B (b_pos B)); trivial; [unfold block_of; now rewrite Epc|now apply F|unfold bend; lia].
  - destruct (_ =? _); [|destruct (o_left o)]; apply Some_inj in H; subst s'; now contradiction Nc.
  - discriminate.
Qed.
End P.
