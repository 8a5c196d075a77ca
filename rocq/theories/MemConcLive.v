(** Progress: the reader alone can always bring itself to the end of everything that
    was reserved, delivering every finished message. *)
From Verif Require Import Base MemSpec Mem MemProof MemConc MemConcLib MemConcStores MemConcInv MemConcSpec MemConcProof MemConcRead.
Local Open Scope N_scope.
Local Ltac Zify.zify_post_hook ::= idtac.

Definition fins (bs : list blk) : list bytes := map b_msg (filter b_fin bs).
Lemma fins_skip x bs : fins (skip_at x bs) = fins bs.
Proof.
  unfold fins, skip_at. induction bs as [|B bs IH]; trivial. cbn [map filter]. destruct (_ && _); cbn [mark_skip b_fin];
    destruct (b_fin B); cbn [map mark_skip b_msg]; now rewrite IH.
Qed.

Section P.
Variables (n p timeout : N) (hash : bytes -> N).
Notation Inv := (Inv n p hash).
Notation rrun := (rrun n p timeout hash).
Notation rstep := (rstep n p timeout hash).

Lemma rrun_trans a b c : rrun a b -> rrun b c -> rrun a c.
Proof. intros R. revert c. induction R; intros; trivial; [eapply rrun_recv|eapply rrun_step]; eauto. Qed.
Lemma rrun_reach a b : reach n p timeout hash a -> rrun a b -> reach n p timeout hash b.
Proof.
  intros R H. induction H; trivial; apply IHrrun.
  - apply (reach_step n p timeout hash s (LRecv cap)); [exact R|exact I|exact H].
  - eapply reach_step; [exact R|exact H|exact H0].
Qed.

Definition Done (g : N) (s : st) : Prop :=
  exists s', rrun s s' /\ Inv s' /\ s_rd s' = RIdle /\ g <= s_gr s' /\ s_gw s' = s_gw s /\ fins (s_blks s') = fins (s_blks s).
Lemma Done_le g g' s : Done g s -> g' <= g -> Done g' s.
Proof. intros (s' & H1 & H2 & H3 & H4 & H5) L. exists s'. repeat (split; trivial). lia. Qed.
Lemma done_step g now s s1 : Inv s -> fair n (LR now) s -> rstep now s = Some s1 -> s_gw s1 = s_gw s -> fins (s_blks s1) = fins (s_blks s) ->
  (Inv s1 -> Done g s1) -> Done g s.
Proof.
  intros V F H Eg Ef D. destruct (D (rstep_inv _ _ _ _ _ _ _ V F H)) as (s' & H1 & H2 & H3 & H4 & H5 & H6). exists s'.
  split; [eapply rrun_step; eauto|]. repeat (split; trivial); congruence.
Qed.
(** Steps that only move the reader's program counter. *)
Lemma done_go g now s rd s1 : Inv s -> fair n (LR now) s -> rstep now s = Some s1 -> s1 = with_rd s rd ->
  (Inv s1 -> Done g s1) -> Done g s.
Proof. intros V F H -> D. eapply done_step; eauto. Qed.

Lemma done_store g s ori e code out ge : Inv s -> s_rd s = RStore ori e code out ge -> g <= ge -> Done g s.
Proof.
  intros V E L. eapply (done_step g 0 s); [trivial|cbn; now rewrite E|unfold MemConc.rstep; rewrite E; reflexivity|reflexivity|reflexivity|].
  intros V'. eexists. split; [apply rrun_nil|]. split; [exact V'|]. repeat (split; trivial).
Qed.
Lemma done_hash g k : forall s l out e acc ge, Inv s -> s_rd s = RHash l out e acc ge -> g <= ge -> (length acc + k = 8)%nat -> Done g s.
Proof.
  induction k as [|k IH]; intros s l out e acc ge V E L Hk.
  - eapply (done_step g 0 s); [trivial|cbn; now rewrite E|unfold MemConc.rstep; rewrite E, (proj2 (Nat.ltb_ge _ _)) by lia; reflexivity|reflexivity|reflexivity|].
    intros V'. eapply done_store; [exact V'|reflexivity|trivial].
  - eapply (done_step g 0 s); [trivial|cbn; now rewrite E|unfold MemConc.rstep; rewrite E, (proj2 (Nat.ltb_lt _ _)) by lia; reflexivity|reflexivity|reflexivity|].
    intros V'. eapply IH; [exact V'|reflexivity|trivial|]. rewrite app_length. cbn [length]. lia.
Qed.
Lemma done_copy g k : forall s l size e acc ge, Inv s -> s_rd s = RCopy l size e acc ge -> g <= ge -> N.to_nat (size - blen acc) = k -> Done g s.
Proof.
  induction k as [|k IH]; intros s l size e acc ge V E L Hk.
  - eapply (done_step g 0 s); [trivial|cbn; now rewrite E|unfold MemConc.rstep; rewrite E, (proj2 (N.ltb_ge _ _)) by lia; reflexivity|reflexivity|reflexivity|].
    intros V'. eapply (done_hash g 8); [exact V'|reflexivity|trivial|reflexivity].
  - eapply (done_step g 0 s); [trivial|cbn; now rewrite E|unfold MemConc.rstep; rewrite E, (proj2 (N.ltb_lt _ _)) by lia; reflexivity|reflexivity|reflexivity|].
    intros V'. eapply IH; [exact V'|reflexivity|trivial|]. unfold blen in *. rewrite app_length. cbn [length]. lia.
Qed.

Lemma done_size2 g k : forall s l e acc ge, Inv s -> s_rd s = RSize2 l e acc ge -> g <= ge -> (length acc + k = 8)%nat -> Done g s.
Proof.
  induction k as [|k IH]; intros s l e acc ge V E L Hk.
  - eapply (done_step g 0 s); [trivial|cbn; now rewrite E|unfold MemConc.rstep; rewrite E, (proj2 (Nat.ltb_ge _ _)) by lia; reflexivity|reflexivity|reflexivity|].
    intros V'. eapply done_copy; [exact V'|reflexivity|trivial|reflexivity].
  - eapply (done_step g 0 s); [trivial|cbn; now rewrite E|unfold MemConc.rstep; rewrite E, (proj2 (Nat.ltb_lt _ _)) by lia; reflexivity|reflexivity|reflexivity|].
    intros V'. eapply IH; [exact V'|reflexivity|trivial|]. rewrite app_length. cbn [length]. lia.
Qed.

(** A reader that has found an inconsistent block cannot exist. *)
Lemma no_bad_top s l t : Inv s -> s_rd s = RTop (next_rb n (with_rb l t (or_ret (l_ret l) E_BLOCK_NODE_NUM))) -> False.
Proof.
  intros V E. pose proof (v_rd _ _ _ _ V) as R. rewrite E in R. cbn [rd_ok] in R. destruct R as (_ & R & _). revert R.
  cbn [next_rb with_rb l_ret]. unfold or_ret. destruct (Z.eqb_spec (l_ret l) 0); [discriminate|trivial].
Qed.
Lemma no_bad_skip s l t : Inv s -> s_rd s = RSkip (with_rb l t (or_ret (l_ret l) E_BLOCK_BUFF_SIZE)) -> False.
Proof.
  intros V E. pose proof (v_rd _ _ _ _ V) as R. rewrite E in R. cbn [rd_ok] in R. destruct R as ((_ & R & _) & _). revert R.
  cbn [with_rb l_ret]. unfold or_ret. destruct (Z.eqb_spec (l_ret l) 0); [discriminate|trivial].
Qed.

Lemma done_scan g k : forall s l size sq e ge, Inv s -> s_rd s = RScan l size sq e ge -> g <= l_grb l + 1 -> (N.to_nat (l_gw l - ge) <= k)%nat -> Done g s.
Proof.
  induction k as [|k IH]; intros s l size sq e ge V E L Hk.
  - (* nothing left: must stop *)
    pose proof (v_rd _ _ _ _ V) as R. rewrite E in R. cbn [rd_ok] in R. destruct R as ((R & _) & Ee & B & C & _ & _ & Hge).
    pose proof (cur_end _ _ _ _ _ _ _ R C) as He.
    assert (Ew : e = l_w l). { destruct R as (_ & _ & _ & -> & _). rewrite Ee. f_equal. lia. }
    eapply (done_step g 0 s); [trivial|cbn; now rewrite E|unfold MemConc.rstep; rewrite E, (proj2 (N.eqb_eq _ _) Ew); reflexivity|reflexivity|reflexivity|].
    intros V'. destruct (calc_nodes size =? range_count n (l_rb l) e); [|exfalso; eapply no_bad_top; [exact V'|reflexivity]].
    eapply (done_size2 g 8); [exact V'|reflexivity| |reflexivity]. pose proof C as (C1 & C2 & _). pose proof (cost_pos (b_msg B)). unfold bend in *. lia.
  - pose proof (v_rd _ _ _ _ V) as R. rewrite E in R. cbn [rd_ok] in R. destruct R as ((R & _) & Ee & B & C & Sz & Sq & Hge).
    pose proof (cur_end _ _ _ _ _ _ _ R C) as He. pose proof C as (C1 & C2 & _). pose proof (cost_pos (b_msg B)) as Cp.
    assert (Stop : forall s1, s1 = with_rd s (if calc_nodes size =? range_count n (l_rb l) e then RSize2 l e [] ge
      else RTop (next_rb n (with_rb l (l_tmo l) (or_ret (l_ret l) E_BLOCK_NODE_NUM)))) -> Inv s1 -> Done g s1).
    { intros s1 -> V'. destruct (calc_nodes size =? range_count n (l_rb l) e) eqn:Ec; [|exfalso; eapply no_bad_top; [exact V'|reflexivity]].
      eapply (done_size2 g 8); [exact V'|reflexivity| |reflexivity].
      pose proof (v_rd _ _ _ _ V') as R'. cbn [with_rd s_rd rd_ok] in R'. destruct R' as (_ & _ & B' & C' & -> & _).
      destruct C' as (_ & Cp' & _). unfold bend. pose proof (cost_pos (b_msg B')). lia. }
    assert (Clr : forall s1, s1 = with_rd s (RClr l size sq e ge) -> Inv s1 -> Done g s1).
    { intros s1 -> V'. eapply (done_step g 0); [exact V'|exact I|reflexivity|reflexivity|reflexivity|].
      intros V''. eapply IH; [exact V''|reflexivity|trivial|]. pose proof (v_rd _ _ _ _ V') as R'. cbn [with_rd s_rd rd_ok] in R'.
      destruct R' as (_ & _ & B' & C' & _ & _ & G'). pose proof (cur_end _ _ _ _ _ _ _ R C'). lia. }
    destruct (rstep 0 s) as [s1|] eqn:Es; [|exfalso; revert Es; unfold MemConc.rstep; rewrite E; destruct (e =? l_w l), (negb (s_mem s (CSeq e) =? sq)), (e =? l_rb l); discriminate].
    eapply (done_step g 0 s s1); [trivial|cbn; now rewrite E|exact Es| | |].
    1,2: revert Es; unfold MemConc.rstep; rewrite E; destruct (e =? l_w l), (negb (s_mem s (CSeq e) =? sq)), (e =? l_rb l); intros Es; apply Some_inj in Es; subst s1; reflexivity.
    intros V'. revert Es; unfold MemConc.rstep; rewrite E; destruct (e =? l_w l), (negb (s_mem s (CSeq e) =? sq)), (e =? l_rb l);
      intros Es; apply Some_inj in Es; try (apply Stop; [now rewrite <- Es|trivial]); try (apply Clr; [now rewrite <- Es|trivial]).
    subst s1. destruct (rstep 0 (with_rd s (RScanF l size sq e ge))) as [s2|] eqn:Es2;
      [|exfalso; revert Es2; unfold MemConc.rstep; cbn [with_rd s_rd]; destruct (N.testbit _ 1); discriminate].
    eapply (done_step g 0 _ s2); [exact V'|exact I|exact Es2| | |].
    1,2: revert Es2; unfold MemConc.rstep; cbn [with_rd s_rd]; destruct (N.testbit _ 1); intros Es2; apply Some_inj in Es2; subst s2; reflexivity.
    intros V2. revert Es2; unfold MemConc.rstep; cbn [with_rd s_rd s_mem]; destruct (N.testbit _ 1); intros Es2; apply Some_inj in Es2; subst s2.
    + now apply Stop.
    + now apply Clr.
Qed.

Lemma done_size g k : forall s l acc, Inv s -> s_rd s = RSize l acc -> (g <= l_grb l \/ g <= l_grb l + 1 /\ 2 ^ 63 <= l_cap l) -> (length acc + k = 8)%nat -> Done g s.
Proof.
  induction k as [|k IH]; intros s l acc V E L Hk.
  - pose proof (v_rd _ _ _ _ V) as R. rewrite E in R. cbn [rd_ok] in R. destruct R as (R & B & C & La & Ea).
    pose proof C as (_ & _ & _ & b & EB). pose proof (c_blk _ _ _ _ _ _ _ _ (v_core _ _ _ _ V) b B EB) as [[F1 F2] _].
    assert (Es : bytes_word acc = blen (b_msg B)).
    { rewrite Ea. rewrite firstn_all2 by (rewrite word_bytes_length; lia). apply bytes_word_bytes. cbn [Nat.mul Nat.add N.of_nat]. lia. }
    destruct (rstep 0 s) as [s1|] eqn:St;
      [|exfalso; revert St; unfold MemConc.rstep; rewrite E, (proj2 (Nat.ltb_ge _ _)) by lia; destruct ((bytes_word acc =? 0) || (256 * n - 256 * p <=? bytes_word acc)), (l_cap l <? bytes_word acc); discriminate].
    eapply (done_step g 0 s s1); [trivial|cbn; now rewrite E|exact St| | |].
    1,2: revert St; unfold MemConc.rstep; rewrite E, (proj2 (Nat.ltb_ge _ _)) by lia; destruct ((bytes_word acc =? 0) || (256 * n - 256 * p <=? bytes_word acc)), (l_cap l <? bytes_word acc); intros St; apply Some_inj in St; subst s1; reflexivity.
    intros V'. revert St; unfold MemConc.rstep; rewrite E, (proj2 (Nat.ltb_ge _ _)) by lia. destruct (_ || _).
    { intros St; apply Some_inj in St; subst s1. exfalso. eapply no_bad_skip; [exact V'|reflexivity]. }
    destruct (N.ltb_spec (l_cap l) (bytes_word acc)); intros St; apply Some_inj in St; subst s1.
    + eapply done_store; [exact V'|reflexivity|]. destruct L as [L|[L1 L2]]; [trivial|lia].
    + eapply (done_step g 0); [exact V'|exact I|reflexivity|reflexivity|reflexivity|].
      intros V2. eapply done_scan; [exact V2|reflexivity|lia|reflexivity].
  - eapply (done_step g 0 s); [trivial|cbn; now rewrite E|unfold MemConc.rstep; rewrite E, (proj2 (Nat.ltb_lt _ _)) by lia; reflexivity|reflexivity|reflexivity|].
    intros V'. eapply IH; [exact V'|reflexivity|trivial|]. rewrite app_length. cbn [length]. lia.
Qed.

(** The block at a position the reader is about to give up on is unfinished. *)
Definition unfin (s : st) (l : loc) : Prop := forall B, In B (s_blks s) -> b_pos B <= l_grb l < b_pos B + cost (b_msg B) -> b_fin B = false.
Lemma unfin_flag0 s l : Inv s -> s_rd s = RTop l -> N.testbit (s_mem s (CFlag (l_rb l))) 0 = false -> unfin s l.
Proof.
  intros V E T B Hin X. apply In_nth_error in Hin. destruct Hin as [b Eb]. destruct (b_fin B) eqn:F; trivial. exfalso.
  pose proof (v_core _ _ _ _ V) as V1. pose proof (v_rd _ _ _ _ V) as R. rewrite E in V1, R. cbn [clr_of rd_ok] in V1, R.
  destruct R as (_ & _ & L3 & _ & L5 & _). rewrite L3, (fin_flag _ _ _ _ _ _ _ _ _ _ (l_grb l) V1 Eb F) in T by (unfold bend; lia).
  destruct (l_grb l =? b_pos B); discriminate.
Qed.
Lemma unfin_flag1 s l : Inv s -> s_rd s = RStart l -> N.testbit (s_mem s (CFlag (l_rb l))) 1 = false -> unfin s l.
Proof.
  intros V E T B Hin X. apply In_nth_error in Hin. destruct Hin as [b Eb]. destruct (b_fin B) eqn:F; trivial. exfalso.
  pose proof (v_core _ _ _ _ V) as V1. pose proof (v_rd _ _ _ _ V) as R. rewrite E in V1, R. cbn [clr_of rd_ok] in V1, R.
  destruct R as ((_ & _ & L3 & _ & L5 & _ & _ & L8) & Lt & _). rewrite L3, (fin_flag _ _ _ _ _ _ _ _ _ _ (l_grb l) V1 Eb F) in T by (unfold bend; lia).
  destruct (N.eqb_spec (l_grb l) (b_pos B)); [discriminate|]. rewrite (c_skip _ _ _ _ _ _ _ _ V1 b B Eb) in F; [discriminate|].
  apply (L8 b B Eb); unfold bend; lia.
Qed.

(** Anything the reader can do after loading the cursors ends. *)
Lemma done_skip g s l : Inv s -> s_rd s = RSkip l -> unfin s l -> (forall s1, Inv s1 -> s_rd s1 = RTop (next_rb n l) -> Done g s1) -> Done g s.
Proof.
  intros V E U D. eapply (done_step g 0 s); [trivial| |unfold MemConc.rstep; rewrite E; reflexivity|reflexivity|apply fins_skip|].
  - cbn [fair]. rewrite E. exact U.
  - intros V'. apply D; trivial.
Qed.
Lemma done_top g k : forall s l, Inv s -> s_rd s = RTop l -> g <= l_grb l -> (N.to_nat (l_gw l - l_grb l) <= k)%nat -> Done g s.
Proof.
  induction k as [|k IH]; intros s l V E L Hk; pose proof (v_rd _ _ _ _ V) as R; rewrite E in R; cbn [rd_ok] in R; destruct R as (L1 & L2 & L3 & L4 & L5 & L6 & _).
  - assert (Ew : l_rb l = l_w l) by (rewrite L3, L4; f_equal; lia).
    eapply (done_step g 0 s); [trivial|cbn; now rewrite E|unfold MemConc.rstep; rewrite E, (proj2 (N.eqb_eq _ _) Ew); reflexivity|reflexivity|reflexivity|].
    intros V'. eapply done_store; [exact V'|reflexivity|trivial].
  - assert (Sk : forall t s1 l', l' = with_rb l t (l_ret l) \/ l' = l -> Inv s1 -> s_rd s1 = RSkip l' -> unfin s1 l -> Done g s1).
    { intros t s1 l' El V1 E1 U1. assert (X : l_grb l' = l_grb l /\ l_gw l' = l_gw l) by (destruct El as [-> | ->]; auto). destruct X as [X1 X2].
      eapply done_skip; [exact V1|exact E1|unfold unfin; now rewrite X1|].
      intros s2 V2 E2. eapply IH; [exact V2|exact E2|cbn [next_rb l_grb]; lia|cbn [next_rb l_grb l_gw]].
      pose proof (v_rd _ _ _ _ V2) as R2. rewrite E2 in R2. cbn [rd_ok next_rb] in R2. destruct R2 as (_ & _ & _ & _ & R2 & _). cbn [next_rb l_grb l_gw] in R2. lia. }
    assert (Tm : forall s1 t, Inv s1 -> s_rd s1 = RTimer l t -> unfin s1 l -> Done g s1).
    { intros s1 t V1 E1 U1.
      destruct (rstep 0 s1) as [s2|] eqn:St; [|exfalso; revert St; unfold MemConc.rstep; rewrite E1; destruct (s_fft s1 =? 0); [|destruct (timeout <? _)]; discriminate].
      eapply (done_step g 0 s1 s2); [trivial|cbn; now rewrite E1|exact St| | |].
      1,2: revert St; unfold MemConc.rstep; rewrite E1; destruct (s_fft s1 =? 0); [|destruct (timeout <? _)]; intros St; apply Some_inj in St; subst s2; reflexivity.
      intros V2. revert St; unfold MemConc.rstep; rewrite E1; destruct (s_fft s1 =? 0); [|destruct (timeout <? _)]; intros St; apply Some_inj in St; subst s2;
        try (eapply done_store; [exact V2|reflexivity|trivial]).
      eapply Sk; [left; reflexivity|exact V2|reflexivity|exact U1]. }
    destruct (rstep 0 s) as [s1|] eqn:St;
      [|exfalso; revert St; unfold MemConc.rstep; rewrite E; destruct (l_rb l =? l_w l), (N.testbit (s_mem s (CFlag (l_rb l))) 0); discriminate].
    eapply (done_step g 0 s s1); [trivial|cbn; now rewrite E|exact St| | |].
    1,2: revert St; unfold MemConc.rstep; rewrite E; destruct (l_rb l =? l_w l), (N.testbit (s_mem s (CFlag (l_rb l))) 0); intros St; apply Some_inj in St; subst s1; reflexivity.
    intros V1. revert St; unfold MemConc.rstep; rewrite E. destruct (_ =? _).
    { intros St; apply Some_inj in St; subst s1. eapply done_store; [exact V1|reflexivity|trivial]. }
    destruct (N.testbit (s_mem s (CFlag (l_rb l))) 0) eqn:T0; intros St; apply Some_inj in St; subst s1.
    + (* RStart *)
      destruct (N.testbit (s_mem s (CFlag (l_rb l))) 1) eqn:T1.
      * eapply (done_step g 0 _ (with_rd s (RSize l []))); [exact V1|exact I| |reflexivity|reflexivity|].
        -- unfold MemConc.rstep; cbn [with_rd s_rd s_mem]. rewrite T1, L2. reflexivity.
        -- intros V2. eapply (done_size g 8); [exact V2|reflexivity|now left|reflexivity].
      * pose proof (unfin_flag1 _ l V1 eq_refl T1) as U.
        eapply (done_step g 0 _ (with_rd s (RSkip l))); [exact V1|exact I| |reflexivity|reflexivity|].
        -- unfold MemConc.rstep; cbn [with_rd s_rd s_mem]. rewrite T1. reflexivity.
        -- intros V2. eapply (Sk 0); [right; reflexivity|exact V2|reflexivity|exact U].
    + (* RNoW *)
      pose proof (unfin_flag0 _ l V E T0) as U.
      destruct (rstep 0 (with_rd s (RNoW l 0))) as [s2|] eqn:St2;
        [|exfalso; revert St2; unfold MemConc.rstep; cbn [with_rd s_rd]; destruct (_ && _); discriminate].
      eapply (done_step g 0 _ s2); [exact V1|exact I|exact St2| | |].
      1,2: revert St2; unfold MemConc.rstep; cbn [with_rd s_rd]; destruct (_ && _); intros St; apply Some_inj in St; subst s2; reflexivity.
      intros V2. revert St2; unfold MemConc.rstep; cbn [with_rd s_rd]; destruct (_ && _); intros St; apply Some_inj in St; subst s2;
        [|eapply Tm; [exact V2|reflexivity|exact U]].
      destruct (rstep 0 (with_rd s (RFast l 0))) as [s3|] eqn:St3;
        [|exfalso; revert St3; unfold MemConc.rstep; cbn [with_rd s_rd]; destruct (negb _); discriminate].
      change (with_rd (with_rd s (RNoW l 0)) (RFast l 0)) with (with_rd s (RFast l 0)) in *.
      eapply (done_step g 0 _ s3); [exact V2|exact I|exact St3| | |].
      1,2: revert St3; unfold MemConc.rstep; cbn [with_rd s_rd]; destruct (negb _); intros St; apply Some_inj in St; subst s3; reflexivity.
      intros V3. revert St3; unfold MemConc.rstep; cbn [with_rd s_rd]; destruct (negb _); intros St; apply Some_inj in St; subst s3.
      * eapply (Sk 0); [right; reflexivity|exact V3|reflexivity|exact U].
      * eapply Tm; [exact V3|reflexivity|exact U].
Qed.

Lemma done_recv g cap s s1 : step n p timeout hash (LRecv cap) s = Some s1 -> Done g s1 -> s_gw s1 = s_gw s -> s_blks s1 = s_blks s -> Done g s.
Proof.
  intros H (s' & H1 & H2 & H3 & H4 & H5 & H6) Eg Eb. exists s'. split; [eapply rrun_recv; eauto|]. repeat (split; trivial); congruence.
Qed.

(** From an idle reader with something left, some schedule of receives advances it. *)
Definition start (s : st) : loc :=
  {| l_cap := 2 ^ 63; l_ori := s_r s; l_w := s_w s; l_tmo := 0; l_rb := s_r s; l_ret := OK; l_gw := s_gw s; l_grb := s_gr s |}.
Lemma start_top g s : Inv s -> s_rd s = RIdle -> (Inv (with_rd s (RTop (start s))) -> Done g (with_rd s (RTop (start s)))) -> Done g s.
Proof.
  intros V E D. assert (S1 : step n p timeout hash (LRecv (2 ^ 63)) s = Some (with_rd s (RLoadW (2 ^ 63) (s_r s)))) by (cbn [step]; now rewrite E).
  pose proof (step_inv n p timeout hash (LRecv (2 ^ 63)) _ _ V I S1) as V1. apply (done_recv g _ _ _ S1); [|reflexivity|reflexivity].
  eapply (done_step g 0); [exact V1|exact I|reflexivity|reflexivity|reflexivity|]. intros V2. apply D. exact V2.
Qed.
Lemma adv_set s : Inv s -> s_rd s = RIdle -> s_gr s < s_gw s -> N.testbit (s_mem s (CFlag (s_r s))) 0 = true -> Done (s_gr s + 1) s.
Proof.
  intros V E L T0. apply start_top; trivial. intros V1. set (l := start s) in *.
  pose proof (v_core _ _ _ _ V) as C. pose proof (c_room _ _ _ _ _ _ _ _ C) as Hr. pose proof (c_n _ _ _ _ _ _ _ _ C) as Hn.
  assert (Nw : (l_rb l =? l_w l) = false).
  { cbn [l start l_rb l_w]. rewrite (v_r _ _ _ _ V), (v_w _ _ _ _ V). apply N.eqb_neq. intros X. apply (win n _ _ (s_gr s)) in X; lia. }
  eapply (done_step _ 0 _ (with_rd s (RStart l))); [exact V1|exact I| |reflexivity|reflexivity|].
  { unfold MemConc.rstep. cbn [with_rd s_rd s_mem]. rewrite Nw. change (l_rb l) with (s_r s). rewrite T0. reflexivity. }
  intros V2. destruct (N.testbit (s_mem s (CFlag (l_rb l))) 1) eqn:T1.
  - eapply (done_step _ 0 _ (with_rd s (RSize l []))); [exact V2|exact I| |reflexivity|reflexivity|].
    + unfold MemConc.rstep; cbn [with_rd s_rd s_mem]. rewrite T1. reflexivity.
    + intros V3. eapply (done_size _ 8); [exact V3|reflexivity| |reflexivity]. right. cbn [l start l_grb l_cap]. lia.
  - pose proof (unfin_flag1 _ l V2 eq_refl T1) as U.
    eapply (done_step _ 0 _ (with_rd s (RSkip l))); [exact V2|exact I| |reflexivity|reflexivity|].
    + unfold MemConc.rstep; cbn [with_rd s_rd s_mem]. rewrite T1. reflexivity.
    + intros V3. eapply done_skip; [exact V3|reflexivity|exact U|]. intros s1 V4 E4. eapply done_top; [exact V4|exact E4| |reflexivity].
      cbn [next_rb l start l_grb]. lia.
Qed.
Lemma adv_late s : Inv s -> s_rd s = RIdle -> s_gr s < s_gw s -> N.testbit (s_mem s (CFlag (s_r s))) 0 = false -> s_fft s <> 0 -> Done (s_gr s + 1) s.
Proof.
  intros V E L T0 Nf. apply start_top; trivial. intros V1. set (l := start s) in *.
  pose proof (v_core _ _ _ _ V) as C. pose proof (c_room _ _ _ _ _ _ _ _ C) as Hr. pose proof (c_n _ _ _ _ _ _ _ _ C) as Hn.
  assert (Nw : (l_rb l =? l_w l) = false).
  { cbn [l start l_rb l_w]. rewrite (v_r _ _ _ _ V), (v_w _ _ _ _ V). apply N.eqb_neq. intros X. apply (win n _ _ (s_gr s)) in X; lia. }
  set (t := s_fft s + timeout + 1).
  pose proof (unfin_flag0 _ l V1 eq_refl T0) as U.
  eapply (done_step _ t _ (with_rd s (RNoW l t))); [exact V1|exact I| |reflexivity|reflexivity|].
  { unfold MemConc.rstep. cbn [with_rd s_rd s_mem]. rewrite Nw. change (l_rb l) with (s_r s). rewrite T0. reflexivity. }
  intros V2. eapply (done_step _ t _ (with_rd s (RTimer l t))); [exact V2|exact I|reflexivity|reflexivity|reflexivity|].
  intros V3. eapply (done_step _ t _ (with_rd (with_fft s 0) (RSkip (with_rb l (s_mem s (CSeq (l_rb l))) (l_ret l))))); [exact V3|exact I| |reflexivity|reflexivity|].
  { unfold MemConc.rstep. cbn [with_rd s_rd s_mem s_fft]. rewrite (proj2 (N.eqb_neq _ _) Nf).
    rewrite (proj2 (N.ltb_lt (s_fft s) t)) by (unfold t; lia). rewrite (proj2 (N.ltb_lt timeout _)) by (unfold t; lia). reflexivity. }
  intros V4. eapply done_skip; [exact V4|reflexivity|exact U|]. intros s1 V5 E5. eapply done_top; [exact V5|exact E5| |reflexivity].
  cbn [next_rb with_rb l start l_grb]. lia.
Qed.
Lemma adv s : Inv s -> s_rd s = RIdle -> s_gr s < s_gw s -> Done (s_gr s + 1) s.
Proof.
  intros V E L. destruct (N.testbit (s_mem s (CFlag (s_r s))) 0) eqn:T0; [now apply adv_set|].
  destruct (N.eq_dec (s_fft s) 0) as [Ef|Ef]; [|now apply adv_late].
  apply start_top; trivial. intros V1. set (l := start s) in *.
  pose proof (v_core _ _ _ _ V) as C. pose proof (c_room _ _ _ _ _ _ _ _ C) as Hr. pose proof (c_n _ _ _ _ _ _ _ _ C) as Hn.
  assert (Nw : (l_rb l =? l_w l) = false).
  { cbn [l start l_rb l_w]. rewrite (v_r _ _ _ _ V), (v_w _ _ _ _ V). apply N.eqb_neq. intros X. apply (win n _ _ (s_gr s)) in X; lia. }
  eapply (done_step _ 1 _ (with_rd s (RNoW l 1))); [exact V1|exact I| |reflexivity|reflexivity|].
  { unfold MemConc.rstep. cbn [with_rd s_rd s_mem]. rewrite Nw. change (l_rb l) with (s_r s). rewrite T0. reflexivity. }
  intros V2. eapply (done_step _ 1 _ (with_rd s (RTimer l 1))); [exact V2|exact I|reflexivity|reflexivity|reflexivity|].
  intros V3. eapply (done_step _ 1 _ (with_rd (with_fft s 1) (bail l E_NO_DATA))); [exact V3|exact I| |reflexivity|reflexivity|].
  { unfold MemConc.rstep. cbn [with_rd s_rd s_mem s_fft]. rewrite Ef. reflexivity. }
  intros V4. assert (S5 : rstep 1 (with_rd (with_fft s 1) (bail l E_NO_DATA)) = Some (with_result (with_rd (with_fft s 1) (bail l E_NO_DATA)) (s_r s) (s_gr s) (E_NO_DATA, []))).
  { unfold MemConc.rstep, bail. cbn [with_rd s_rd]. change (l_ori l) with (s_r s). change (l_rb l) with (s_r s). rewrite N.eqb_refl. reflexivity. }
  eapply (done_step _ 1); [exact V4|exact I|exact S5|reflexivity|reflexivity|].
  intros V5. apply (adv_late _ V5); trivial. discriminate.
Qed.

Lemma drain k : forall s, Inv s -> s_rd s = RIdle -> (N.to_nat (s_gw s - s_gr s) <= k)%nat ->
  exists s', rrun s s' /\ Inv s' /\ s_rd s' = RIdle /\ s_gr s' = s_gw s' /\ fins (s_blks s') = fins (s_blks s).
Proof.
  induction k as [|k IH]; intros s V E Hk; pose proof (c_room _ _ _ _ _ _ _ _ (v_core _ _ _ _ V)) as Hr.
  - exists s. split; [apply rrun_nil|]. repeat (split; trivial). lia.
  - destruct (N.eq_dec (s_gr s) (s_gw s)); [exists s; split; [apply rrun_nil|]; repeat (split; trivial)|].
    destruct (adv s V E) as (s1 & R1 & V1 & E1 & G1 & W1 & F1); [lia|].
    destruct (IH s1 V1 E1) as (s2 & R2 & V2 & E2 & G2 & F2); [lia|]. exists s2.
    split; [now apply (rrun_trans _ s1)|]. repeat (split; trivial). congruence.
Qed.

(** At the end of everything reserved, exactly the finished messages were delivered. *)
Lemma end_delivered s : Inv s -> s_gr s = s_gw s -> delivered s = fins (s_blks s).
Proof.
  intros V Eg. rewrite (v_out _ _ _ _ V). pose proof (v_core _ _ _ _ V) as C. pose proof (c_clr _ _ _ _ _ _ _ _ C) as Hc.
  assert (X : forall B, In B (s_blks s) -> (bend B <=? s_gr s) && negb (b_skip B) = b_fin B).
  { intros B Hin. apply In_nth_error in Hin. destruct Hin as [b Eb]. pose proof (chain_nth _ _ _ _ _ (c_chain _ _ _ _ _ _ _ _ C) Eb) as Hb.
    rewrite (proj2 (N.leb_le _ _)) by lia. cbn [andb]. destruct (b_fin B) eqn:F; destruct (b_skip B) eqn:S; trivial.
    - apply (c_skip _ _ _ _ _ _ _ _ C b B Eb) in S. congruence.
    - rewrite (c_early _ _ _ _ _ _ _ _ C b B Eb) in S; trivial. pose proof (cost_pos (b_msg B)). unfold bend in *. lia. }
  unfold cons_, fins. f_equal. now apply filter_ext_in.
Qed.

(** ** Which block a send that reported success wrote *)
(** [asg i = Some b]: writer [i] has written block [b] and is past its completion flag. *)
Definition okret (o : op) : Prop := o_pc o = WRet OK /\ o_msg o <> [] \/ exists w q, o_pc o = WCheck w q.
Definition assigned (s : st) : Prop :=
  exists f : nat -> nat,
    (forall i o, nth_error (s_ops s) i = Some o -> okret o ->
       exists B, nth_error (s_blks s) (f i) = Some B /\ b_msg B = o_msg o /\ b_fin B = true) /\
    (forall i j o o', nth_error (s_ops s) i = Some o -> nth_error (s_ops s) j = Some o' -> okret o -> okret o' -> f i = f j -> i = j).

Lemma asg_stable s s' : assigned s ->
  (forall i o', nth_error (s_ops s') i = Some o' -> okret o' -> exists o, nth_error (s_ops s) i = Some o /\ okret o /\ o_msg o = o_msg o') ->
  (forall b B, nth_error (s_blks s) b = Some B -> exists B', nth_error (s_blks s') b = Some B' /\ b_msg B' = b_msg B /\ (b_fin B = true -> b_fin B' = true)) ->
  assigned s'.
Proof.
  intros (f & F1 & F2) Ho Hb. exists f. split.
  - intros i o' E' K'. destruct (Ho i o' E' K') as (o & E & K & M). destruct (F1 i o E K) as (B & EB & MB & FB).
    destruct (Hb _ _ EB) as (B' & EB' & MB' & FB'). exists B'. split; trivial. split; [congruence|auto].
  - intros i j o o' E E' K K'. destruct (Ho i o E K) as (o1 & E1 & K1 & _). destruct (Ho j o' E' K') as (o2 & E2 & K2 & _). now apply (F2 i j o1 o2).
Qed.
Lemma blks_same s s' : s_blks s' = s_blks s ->
  forall b B, nth_error (s_blks s) b = Some B -> exists B', nth_error (s_blks s') b = Some B' /\ b_msg B' = b_msg B /\ (b_fin B = true -> b_fin B' = true).
Proof. intros -> b B E. eauto. Qed.
Lemma ops_same s s' i o o' : s_ops s' = set_nth i o' (s_ops s) -> nth_error (s_ops s) i = Some o -> (okret o' -> okret o /\ o_msg o = o_msg o') ->
  forall j oj, nth_error (s_ops s') j = Some oj -> okret oj -> exists o, nth_error (s_ops s) j = Some o /\ okret o /\ o_msg o = o_msg oj.
Proof.
  intros E Ei K j oj Ej Kj. rewrite E, (nth_error_set_nth _ _ _ _ _ Ei) in Ej. destruct (Nat.eqb_spec j i) as [->|]; [|eauto].
  injection Ej as <-. destruct (K Kj). eauto.
Qed.
Ltac not_ok := intros [[X _]|(? & ? & X)]; discriminate.

Lemma asg_step l s s' : Inv s -> assigned s -> step n p timeout hash l s = Some s' -> assigned s'.
Proof.
  intros V A H. destruct l as [m tries|i weak|cap|now]; cbn [step] in H.
  - apply Some_inj in H. subst s'. apply (asg_stable s); trivial; [|now apply blks_same]. cbn [with_ops s_ops]. intros j oj Ej Kj.
    rewrite nth_error_snoc in Ej. destruct (Nat.eqb_spec j (length (s_ops s))); [injection Ej as <-; revert Kj; not_ok|eauto].
  - unfold wstep in H. destruct (nth_error (s_ops s) i) as [o|] eqn:E; [|discriminate].
    pose proof (v_ops _ _ _ _ V) as (O1 & O2 & O3). destruct (O1 i o E) as [[Q1 Q2] _].
    assert (NoRet : forall s1 pc', (forall r, pc' <> WRet r) -> (forall w q, pc' <> WCheck w q) -> s_ops s1 = s_ops s ->
      (forall b B, nth_error (s_blks s) b = Some B -> exists B', nth_error (s_blks s1) b = Some B' /\ b_msg B' = b_msg B /\ (b_fin B = true -> b_fin B' = true)) ->
      assigned (with_op s1 i (pc o pc'))).
    { intros s1 pc' N1 N2 Eo Eb. apply (asg_stable s); trivial.
      apply (ops_same _ _ i o (pc o pc')); trivial; [cbn [with_op s_ops]; now rewrite Eo|].
      intros [[X _]|(? & ? & X)]; cbn [pc o_pc] in X; [now apply N1 in X|now apply N2 in X]. }
    assert (Fail : forall s1 r, r <> OK -> s_ops s1 = s_ops s -> s_blks s1 = s_blks s -> assigned (with_op s1 i (pc o (WRet r)))).
    { intros s1 r Nr Eo Eb. apply (asg_stable s); trivial; [|now apply blks_same].
      apply (ops_same _ _ i o (pc o (WRet r))); trivial; [cbn [with_op s_ops]; now rewrite Eo|].
      intros [[X _]|(? & ? & X)]; cbn [pc o_pc] in X; congruence. }
    destruct (o_pc o) as [ |sq|sq wl gw|sq wl gw gr|b w sq todo|b w sq f|w sq|code] eqn:Epc.
    + destruct (N.eqb_spec (blen (o_msg o)) 0) as [Z|Z].
      { apply Some_inj in H. subst s'. apply (asg_stable s); trivial; [|now apply blks_same].
        apply (ops_same _ _ i o (pc o (WRet OK))); trivial. intros [[_ X]|(? & ? & X)]; [|discriminate].
        exfalso. apply X. cbn [pc o_msg]. unfold blen in Z. destruct (o_msg o); [trivial|cbn in Z; lia]. }
      destruct (n - p <=? calc_nodes (blen (o_msg o))); [apply Some_inj in H; subst s'; now apply Fail|].
      destruct ((s_seq s + 1) mod two32 =? 0); apply Some_inj in H; subst s'.
      * apply (asg_stable s); trivial; [|now apply blks_same]. intros j oj Ej Kj. exists oj. auto.
      * apply NoRet; trivial; try discriminate. now apply blks_same.
    + apply Some_inj in H; subst s'. apply NoRet; trivial; try discriminate. now apply blks_same.
    + destruct (_ <? _); apply Some_inj in H; subst s'; [now apply Fail|]. apply NoRet; trivial; try discriminate. now apply blks_same.
    + destruct (_ && _); apply Some_inj in H; subst s'.
      * apply NoRet; trivial; try discriminate. cbn [with_w s_blks]. intros b B EB. exists B.
        rewrite nth_error_app1; [auto|]. apply nth_error_Some. congruence.
      * apply NoRet; trivial; try discriminate. now apply blks_same.
    + destruct todo as [|[c v] todo]; apply Some_inj in H; subst s'.
      * apply NoRet; trivial; try discriminate. now apply blks_same.
      * apply NoRet; try discriminate.
        -- unfold upd_blk. cbn [with_mem s_blks]. destruct (nth_error _ b); reflexivity.
        -- unfold upd_blk. cbn [with_mem s_blks]. intros b' B' EB'. destruct (nth_error (s_blks s) b) as [B|] eqn:EB; [|eauto].
           cbn [with_blks with_w s_blks]. rewrite (nth_error_set_nth _ _ _ _ _ EB). destruct (Nat.eqb_spec b' b); [|eauto].
           subst. rewrite EB in EB'. injection EB' as <-. eexists. split; [reflexivity|auto].
    + (* the completion flag *)
      destruct Q2 as (B & Q2 & Q4 & Q5 & Q6 & Q7 & Q8 & Q9). apply Some_inj in H; subst s'. unfold upd_blk. cbn [with_mem s_blks]. rewrite Q2.
      destruct A as (f0 & F1 & F2). exists (fun j => if Nat.eqb j i then b else f0 j).
      cbn [with_op with_blks with_w with_mem s_ops s_blks].
      assert (Other : forall j oj, nth_error (s_ops s) j = Some oj -> okret oj -> f0 j <> b).
      { intros j oj Ej Kj X. destruct (F1 j oj Ej Kj) as (B' & EB' & _ & FB'). rewrite X in EB'. congruence. }
      split.
      * intros j oj Ej Kj. rewrite (nth_error_set_nth _ _ _ _ _ E) in Ej. destruct (Nat.eqb_spec j i) as [->|Nj].
        -- injection Ej as <-. eexists. split; [rewrite (nth_error_set_nth _ _ _ _ _ Q2), Nat.eqb_refl; reflexivity|]. split; [exact Q6|reflexivity].
        -- destruct (F1 j oj Ej Kj) as (B' & EB' & MB & FB). exists B'. split; [|auto]. rewrite (nth_error_set_nth _ _ _ _ _ Q2).
           destruct (Nat.eqb_spec (f0 j) b); [|trivial]. now apply (Other j oj Ej Kj) in e.
      * intros j j' oj oj' Ej Ej' Kj Kj'. rewrite (nth_error_set_nth _ _ _ _ _ E) in Ej. rewrite (nth_error_set_nth _ _ _ _ _ E) in Ej'.
        destruct (Nat.eqb_spec j i), (Nat.eqb_spec j' i); subst; trivial.
        -- intros X. symmetry in X. now apply (Other j' oj' Ej' Kj') in X.
        -- intros X. now apply (Other j oj Ej Kj) in X.
        -- now apply (F2 j j' oj oj').
    + destruct (_ =? _); [apply Some_inj in H; subst s'|destruct (o_left o) as [|lf]; apply Some_inj in H; subst s'].
      * apply (asg_stable s); trivial; [|now apply blks_same]. apply (ops_same _ _ i o (pc o (WRet OK))); trivial.
        intros _. split; [right; eauto|reflexivity].
      * now apply Fail.
      * apply (asg_stable s); trivial; [|now apply blks_same]. apply (ops_same _ _ i o {| o_msg := o_msg o; o_left := lf; o_pc := WFetch |}); trivial. not_ok.
    + discriminate.
  - destruct (s_rd s); try discriminate. apply Some_inj in H. subst s'. apply (asg_stable s); trivial; [|now apply blks_same]. eauto.
  - assert (Eo : s_ops s' = s_ops s /\ (s_blks s' = s_blks s \/ exists x, s_blks s' = skip_at x (s_blks s))).
    { unfold MemConc.rstep in H. destruct (s_rd s); repeat match type of H with context [if ?x then _ else _] => destruct x end;
      try discriminate; apply Some_inj in H; subst s'; (split; [reflexivity|]); first [left; reflexivity|right; eexists; reflexivity]. }
    destruct Eo as [Eo Eb]. apply (asg_stable s); trivial; [rewrite Eo; eauto|]. destruct Eb as [Eb|[x Eb]]; [now apply blks_same|].
    intros b B EB. rewrite Eb. destruct (skip_nth_r x _ _ _ EB) as (B' & EB'). exists B'. split; trivial.
    apply skip_nth in EB'. destruct EB' as (B2 & E2 & (_ & M & _) & _ & F & _). rewrite EB in E2. injection E2 as <-. split; [auto|congruence].
Qed.
Lemma asg_init : assigned init.
Proof. exists (fun i => i). split; [intros i o E|intros i j o o' E]; destruct i; discriminate. Qed.
Lemma reach_asg s : 1 <= n < 2 ^ 40 -> p + 1 <= n -> reach n p timeout hash s -> assigned s.
Proof.
  intros Hn Hp R. induction R as [|s l s' R IH F S]; [apply asg_init|]. apply (asg_step l s); trivial. now apply (reach_inv n p timeout hash).
Qed.

(** Every reserved block belongs to a send call: its message was handed to one. *)
Lemma blks_sent s : 1 <= n < 2 ^ 40 -> p + 1 <= n -> reach n p timeout hash s -> forall B, In B (s_blks s) -> exists o, In o (s_ops s) /\ o_msg o = b_msg B.
Proof.
  intros Hn Hp R. induction R as [|s l s' R IH F S]; [intros B []|].
  pose proof (reach_inv n p timeout hash s Hn Hp R) as V.
  assert (Keep : forall os, (forall o, In o (s_ops s) -> exists o', In o' os /\ o_msg o' = o_msg o) ->
    forall B, (exists o, In o (s_ops s) /\ o_msg o = b_msg B) -> exists o, In o os /\ o_msg o = b_msg B).
  { intros os K B (o & Ho & M). destruct (K o Ho) as (o' & Ho' & M'). exists o'. split; congruence. }
  assert (Set1 : forall i o o', nth_error (s_ops s) i = Some o -> o_msg o' = o_msg o ->
    forall x, In x (s_ops s) -> exists x', In x' (set_nth i o' (s_ops s)) /\ o_msg x' = o_msg x).
  { intros i o o' E M x Hx. apply In_nth_error in Hx. destruct Hx as [j Ej]. destruct (Nat.eq_dec j i) as [->|Nj].
    - exists o'. split; [|congruence]. apply (nth_error_In _ i). now rewrite (nth_error_set_nth _ _ _ _ _ E), Nat.eqb_refl.
    - exists x. split; trivial. apply (nth_error_In _ j). rewrite (nth_error_set_nth _ _ _ _ _ E), (proj2 (Nat.eqb_neq j i) Nj). exact Ej. }
  assert (Bset : forall b B0 B', nth_error (s_blks s) b = Some B0 -> b_msg B' = b_msg B0 -> forall B, In B (set_nth b B' (s_blks s)) -> exists B1, In B1 (s_blks s) /\ b_msg B1 = b_msg B).
  { intros b B0 B' E M B HB. apply In_nth_error in HB. destruct HB as [j Ej]. rewrite (nth_error_set_nth _ _ _ _ _ E) in Ej.
    destruct (Nat.eqb_spec j b); [injection Ej as <-; exists B0; split; [now apply nth_error_In in E|congruence]|exists B; split; [now apply nth_error_In in Ej|trivial]]. }
  destruct l as [m tries|i weak|cap|now]; cbn [step] in S.
  - apply Some_inj in S. subst s'. cbn [with_ops s_ops s_blks]. intros B HB. apply Keep; [|now apply IH]. intros o Ho. exists o. split; trivial. apply in_or_app. now left.
  - unfold wstep in S. destruct (nth_error (s_ops s) i) as [o|] eqn:E; [|discriminate].
    assert (Go : forall s1 o', o_msg o' = o_msg o -> s_ops s1 = s_ops s -> (forall B, In B (s_blks s1) -> (exists B0, In B0 (s_blks s) /\ b_msg B0 = b_msg B) \/ b_msg B = o_msg o) ->
      forall B, In B (s_blks (with_op s1 i o')) -> exists x, In x (s_ops (with_op s1 i o')) /\ o_msg x = b_msg B).
    { intros s1 o' M Eo Hb B HB. cbn [with_op s_blks s_ops] in *. rewrite Eo. destruct (Hb B HB) as [(B0 & H0 & M0)|M0].
      - rewrite <- M0. apply Keep; [now apply (Set1 i o)|now apply IH].
      - exists o'. split; [|congruence]. apply (nth_error_In _ i). now rewrite (nth_error_set_nth _ _ _ _ _ E), Nat.eqb_refl. }
    destruct (o_pc o) as [ |sq|sq wl gw|sq wl gw gr|b w sq [|[c v] todo]|b w sq f|w sq|code] eqn:Epc;
      repeat match type of S with context [if ?x then _ else _] => destruct x end; try discriminate;
      repeat match type of S with context [match o_left o with _ => _ end] => destruct (o_left o) end;
      apply Some_inj in S; subst s'; try (apply Go; [reflexivity|reflexivity|]; intros B HB; left; exists B; split; [exact HB|reflexivity]).
    + intros B HB. now apply IH.
    + apply Go; [reflexivity|reflexivity|]. cbn [with_w s_blks]. intros B HB. apply in_app_or in HB. destruct HB as [HB|[<-|[]]]; [left; eauto|right; reflexivity].
    + unfold upd_blk. cbn [with_mem s_blks]. destruct (nth_error (s_blks s) b) as [B0|] eqn:EB.
      * apply Go; [reflexivity|reflexivity|]. cbn [with_blks with_w s_blks]. intros B HB. left. now apply (Bset b B0 _ EB) in HB.
      * apply Go; [reflexivity|reflexivity|]. intros B HB. left. exists B. auto.
    + unfold upd_blk. cbn [with_mem s_blks]. destruct (nth_error (s_blks s) b) as [B0|] eqn:EB.
      * apply Go; [reflexivity|reflexivity|]. cbn [with_blks with_w s_blks]. intros B HB. left. now apply (Bset b B0 _ EB) in HB.
      * apply Go; [reflexivity|reflexivity|]. intros B HB. left. exists B. auto.
  - destruct (s_rd s); try discriminate. apply Some_inj in S. subst s'. exact IH.
  - assert (Eo : s_ops s' = s_ops s /\ (s_blks s' = s_blks s \/ exists x, s_blks s' = skip_at x (s_blks s))).
    { unfold MemConc.rstep in S. destruct (s_rd s); repeat match type of S with context [if ?x then _ else _] => destruct x end;
      try discriminate; apply Some_inj in S; subst s'; (split; [reflexivity|]); first [left; reflexivity|right; eexists; reflexivity]. }
    destruct Eo as [Eo Eb]. rewrite Eo. destruct Eb as [Eb|[x Eb]]; rewrite Eb; trivial. intros B HB. apply In_nth_error in HB.
    destruct HB as [b HB]. apply skip_nth in HB. destruct HB as (B2 & E2 & (_ & M & _) & _). rewrite M. apply IH. now apply nth_error_In in E2.
Qed.
End P.
