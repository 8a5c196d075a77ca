(** The invariant of the concurrent memory channel is preserved by the reader, hence by
    every fair step. *)
From Verif Require Import Base MemSpec Mem MemProof MemConc MemConcLib MemConcStores MemConcInv MemConcSpec MemConcProof.
Local Open Scope N_scope.
Local Ltac Zify.zify_post_hook ::= idtac.

Lemma firstn_S_nth {A} (d : A) l k : (k < length l)%nat -> firstn (S k) l = firstn k l ++ [nth k l d].
Proof.
  revert k. induction l as [|a l IH]; intros k H; [cbn in H; lia|]. destruct k as [|k]; [reflexivity|].
  change (firstn (S (S k)) (a :: l)) with (a :: firstn (S k) l). rewrite IH by (cbn in H; lia). reflexivity.
Qed.

Lemma Some_inj {A} (x y : A) : Some x = Some y -> x = y.
Proof. congruence. Qed.
(** [lia] without the facts about remainders, which slow it down. *)
Ltac qlia := repeat match goal with H : context [N.modulo _ _] |- _ => clear H end; lia.

Section P.
Variables (n p timeout : N) (hash : bytes -> N).
Notation core := (core n p hash).
Notation Inv := (Inv n p hash).
Notation rd_ok := (rd_ok n hash).
Notation loc_ok := (loc_ok n).

Lemma inv_rd s s' rd' : Inv s -> s_mem s' = s_mem s -> s_r s' = s_r s -> s_w s' = s_w s -> s_ops s' = s_ops s -> s_log s' = s_log s ->
  s_gr s' = s_gr s -> s_gw s' = s_gw s -> s_blks s' = s_blks s -> s_rd s' = rd' -> clr_of rd' (s_gr s) = clr_of (s_rd s) (s_gr s) ->
  rd_ok (s_r s) (s_gr s) (s_gw s) (s_blks s) rd' -> Inv s'.
Proof.
  intros [V1 V2 V3 V4 V5 V6 V7] E1 E2 E3 E4 E5 E6 E7 E8 E9 Ec O.
  constructor; unfold delivered; rewrite ?E1, ?E2, ?E3, ?E4, ?E5, ?E6, ?E7, ?E8, ?E9, ?Ec; trivial.
Qed.

(** Position arithmetic. *)
Lemma win a b lo : 1 <= n -> lo <= a < lo + n -> lo <= b < lo + n -> a mod n = b mod n -> a = b.
Proof. intros Hn A B E. apply (mod_win n lo a b); trivial; lia. Qed.
Lemma range_spec a k : 1 <= n -> k < n -> range_count n (a mod n) ((a + k) mod n) = k.
Proof.
  intros Hn Hk. unfold range_count. rewrite <- (N.add_mod_idemp_l a k) by lia.
  pose proof (N.mod_lt a n ltac:(lia)) as L. set (x := a mod n) in *. clearbody x. rewrite ring_add by lia.
  destruct (N.ltb_spec (x + k) n).
  - replace (x + k + n - x) with (k + 1 * n) by lia. rewrite N.mod_add, N.mod_small by lia. reflexivity.
  - replace (x + k - n + n - x) with k by lia. now rewrite N.mod_small.
Qed.

Lemma cur_end r gr gw bs l B : loc_ok r gr gw bs l -> cur bs l B -> bend B <= l_gw l.
Proof.
  intros (_ & _ & _ & _ & _ & _ & L7 & _) (C1 & C2 & _ & b & E). specialize (L7 b B E). lia.
Qed.

Lemma bail_ok r gr gw bs l code : loc_ok r gr gw bs l -> code = E_NO_DATA \/ code = E_BUFF_LIMIT ->
  rd_ok r gr gw bs (bail l code).
Proof.
  intros (L1 & L2 & L3 & L4 & L5 & L6 & L7 & L8) Hc. unfold bail. rewrite L2. cbn [MemConcProof.rd_ok or_ret Z.eqb].
  split; trivial. split; trivial. split; [lia|]. left. split; trivial.
Qed.
Lemma bail_clr l code gr : clr_of (bail l code) gr = l_grb l.
Proof. reflexivity. Qed.

(** The stop of the scan: the block ends at [ge]. *)
Lemma stop_ok s l size sq e ge B :
  Inv s -> loc_ok (s_r s) (s_gr s) (s_gw s) (s_blks s) l -> e = ge mod n -> cur (s_blks s) l B -> size = blen (b_msg B) ->
  sq = b_seq B -> ge = bend B ->
  (if calc_nodes size =? range_count n (l_rb l) e then RSize2 l e [] ge
   else RTop (next_rb n (with_rb l (l_tmo l) (or_ret (l_ret l) E_BLOCK_NODE_NUM)))) = RSize2 l e [] ge.
Proof.
  intros V L -> C -> -> ->. pose proof (v_core _ _ _ _ V) as V1. pose proof (c_n _ _ _ _ _ _ _ _ V1) as Hn.
  destruct C as (C1 & C2 & C3 & b & E). destruct L as (_ & _ & L3 & _). pose proof (c_blk _ _ _ _ _ _ _ _ V1 b B E) as [[F1 F2] _].
  rewrite calc_nodes_cost by lia. rewrite L3. unfold bend. rewrite C2, range_spec, N.eqb_refl by lia. reflexivity.
Qed.

Lemma rstep_inv now s s' : Inv s -> fair n (LR now) s -> rstep n p timeout hash now s = Some s' -> Inv s'.
Proof.
  intros V Fr H. unfold rstep in H. cbn [fair] in Fr.
  pose proof V as [V1 V2 V3 V4 V5 V6 V7]. pose proof V1 as V1'.
  pose proof (c_n _ _ _ _ _ _ _ _ V1) as Hn. pose proof (c_room _ _ _ _ _ _ _ _ V1) as Hroom. pose proof (c_clr _ _ _ _ _ _ _ _ V1) as Hclr.
  pose proof (c_chain _ _ _ _ _ _ _ _ V1) as Hch.
  destruct (s_rd s) as [ |cap ori|l|l|l t|l t|l t|l|l acc|l size|l size sq e ge|l size sq e ge|l size sq e ge|l e acc ge|l size e acc ge|l out e acc ge|ori e code out ge] eqn:Erd;
    cbn [MemConcProof.rd_ok clr_of] in V1, V4, Hclr; try discriminate.
  - (* RLoadW *)
    (apply Some_inj in H; subst s'). destruct V4 as (-> & _ & V4). eapply (inv_rd s); try reflexivity; trivial; [now rewrite Erd|].
    cbv beta iota zeta delta [MemConcProof.rd_ok MemConcProof.loc_ok l_ori l_ret l_rb l_w l_grb l_gw].
    repeat (split; [first [exact eq_refl|exact V2|exact V3|qlia]|]). split.
    + intros b B E X. pose proof (chain_nth _ _ _ _ _ Hch E). qlia.
    + intros b B E X Y. apply (V4 b B E). qlia.
  - (* RTop *)
    pose proof V4 as (L1 & L2 & L3 & L4 & L5 & L6 & L7 & L8).
    destruct (N.eqb_spec (l_rb l) (l_w l)) as [Ew|Ew].
    { (apply Some_inj in H; subst s'). eapply (inv_rd s); try reflexivity; trivial; [now rewrite Erd|]. apply bail_ok; auto. }
    assert (Lt : l_grb l < l_gw l). { assert (l_grb l <> l_gw l) by (intros X; apply Ew; congruence). qlia. }
    destruct (N.testbit (s_mem s (CFlag (l_rb l))) 0) eqn:Tb; (apply Some_inj in H; subst s'); (eapply (inv_rd s); try reflexivity; trivial; [now rewrite Erd|]);
      cbn [MemConcProof.rd_ok]; (split; [trivial|]); [split; trivial|trivial].
    intros b B E X. rewrite L3, <- X in Tb. apply (first_flag _ _ _ _ _ _ _ _ _ _ V1 E); trivial; qlia.
  - (* RStart *)
    destruct V4 as (V4 & Lt & Fi). pose proof V4 as (L1 & L2 & L3 & L4 & L5 & L6 & L7 & L8).
    destruct (N.testbit (s_mem s (CFlag (l_rb l))) 1) eqn:Tb; cbn [negb] in H.
    2: { (apply Some_inj in H; subst s'). eapply (inv_rd s); try reflexivity; trivial; [now rewrite Erd|]. split; trivial. }
    rewrite L2 in H. cbn [Z.eqb negb] in H. (apply Some_inj in H; subst s'). eapply (inv_rd s); try reflexivity; trivial; [now rewrite Erd|].
    cbn [MemConcProof.rd_ok]. split; trivial.
    destruct (chain_owner _ _ _ (l_grb l) Hch) as (b & B & E & X); [qlia|].
    assert (Ep : b_pos B = l_grb l).
    { destruct (N.eq_dec (b_pos B) (l_grb l)) as [|Np]; trivial. exfalso. rewrite L3 in Tb.
      rewrite (mid_flag _ _ _ _ _ _ _ _ _ _ (l_grb l) V1 E) in Tb; [discriminate|qlia|qlia|qlia]. }
    exists B. split; [|split; [cbn; qlia|reflexivity]]. split; trivial. split; trivial. split; [now apply (Fi b)|eauto].
  - (* RNoW *)
    destruct V4 as (V4 & Lt).
    destruct (negb (l_tmo l =? 0) && (l_tmo l =? s_mem s (CSeq (l_rb l)))); (apply Some_inj in H; subst s');
      (eapply (inv_rd s); try reflexivity; trivial; [now rewrite Erd|]); split; trivial.
  - (* RFast *)
    destruct V4 as (V4 & Lt).
    destruct (negb (N.testbit (s_mem s (CFlag (l_rb l))) 1)); (apply Some_inj in H; subst s');
      (eapply (inv_rd s); try reflexivity; trivial; [now rewrite Erd|]); split; trivial.
  - (* RTimer *)
    destruct V4 as (V4 & Lt). destruct (s_fft s =? 0).
    { (apply Some_inj in H; subst s'). eapply (inv_rd s); try reflexivity; trivial; [now rewrite Erd|]. apply bail_ok; auto. }
    destruct (timeout <? _).
    + (apply Some_inj in H; subst s'). eapply (inv_rd s); try reflexivity; trivial; [now rewrite Erd|]. split; trivial.
    + (apply Some_inj in H; subst s'). eapply (inv_rd s); try reflexivity; trivial; [now rewrite Erd|]. apply bail_ok; auto.
  - (* RSkip *)
    destruct V4 as (V4 & Lt). pose proof V4 as (L1 & L2 & L3 & L4 & L5 & L6 & L7 & L8). (apply Some_inj in H; subst s'). rewrite L3.
    assert (Fr' : forall b B, nth_error (s_blks s) b = Some B -> b_pos B <= l_grb l < bend B -> b_fin B = false).
    { intros b B E X. apply (Fr B); trivial. now apply nth_error_In in E. }
    constructor; cbn [with_rd with_blks with_mem with_w s_mem s_r s_w s_rd s_gr s_gw s_blks s_ops s_log next_rb clr_of l_grb]; trivial.
    + apply core_clear; [now apply core_mark|qlia|]. intros b B' E' X Y. apply skip_nth in E'. destruct E' as (B & E & Sm & D & F & S).
      apply S. right. pose proof (cost_pos (b_msg B)). destruct Sm as (Sp & _). unfold bend. qlia.
    + cbn [MemConcProof.rd_ok]. unfold MemConcProof.loc_ok. cbn [next_rb l_ori l_ret l_rb l_w l_grb l_gw].
      split; [trivial|]. split; [trivial|]. split; [rewrite L3; apply nxt; qlia|]. split; [trivial|]. split; [qlia|]. split; [trivial|]. split.
      * intros b B' E' X. apply skip_nth in E'. destruct E' as (B & E & Sm & _). rewrite (same_bend _ _ Sm) in X. destruct Sm as (Sp & _).
        apply (L7 b B E). qlia.
      * intros b B' E' X Y. apply skip_nth in E'. destruct E' as (B & E & Sm & _ & _ & S). apply S. rewrite (same_bend _ _ Sm) in Y.
        destruct Sm as (Sp & _). pose proof (cost_pos (b_msg B)). unfold bend in *.
        destruct (N.eq_dec (b_pos B) (l_grb l)); [right; qlia|left; apply (L8 b B E); unfold bend; qlia].
    + apply ops_env with (mem := s_mem s) (gr := s_gr s) (bs := s_blks s); trivial; [qlia| |].
      * intros b B E. destruct (skip_nth_r (l_grb l) _ _ _ E) as (B' & E'). exists B'. split; trivial.
        apply skip_nth in E'. destruct E' as (B2 & E2 & Sm & D & F & _). rewrite E in E2. injection E2 as <-. auto.
      * intros b B' E'. apply skip_nth in E'. destruct E' as (B2 & E2 & _). eauto.
    + change (delivered s = cons_ (s_gr s) (skip_at (l_grb l) (s_blks s))). rewrite cons_skip by qlia. trivial.
  - (* RSize *)
    destruct V4 as (V4 & B & C & La & Ea). pose proof V4 as (L1 & L2 & L3 & L4 & L5 & L6 & L7 & L8). pose proof C as (C1 & C2 & C3 & b & E).
    pose proof (c_blk _ _ _ _ _ _ _ _ V1 b B E) as [[F1 F2] _].
    destruct (Nat.ltb_spec (length acc) 8) as [La2|La2].
    + (apply Some_inj in H; subst s'). eapply (inv_rd s); try reflexivity; trivial; [now rewrite Erd|]. cbn [MemConcProof.rd_ok]. split; trivial. exists B.
      split; trivial. rewrite app_length. cbn [length]. split; [qlia|]. rewrite Nat.add_1_r.
      rewrite (firstn_S_nth 0) by (rewrite word_bytes_length; qlia). rewrite <- Ea. apply (f_equal (fun z => acc ++ [z])).
      rewrite L3, <- C2, (fin_size _ _ _ _ _ _ _ _ _ _ (N.of_nat (length acc)) V1 E C3) by qlia. now rewrite Nat2N.id.
    + assert (Es : bytes_word acc = blen (b_msg B)).
      { rewrite Ea. rewrite firstn_all2 by (rewrite word_bytes_length; qlia). apply bytes_word_bytes. cbn [Nat.mul Nat.add N.of_nat]. qlia. }
      rewrite Es in H. pose proof (cost_bounds (b_msg B)) as Cb.
      destruct (N.eqb_spec (blen (b_msg B)) 0); [qlia|]. cbn [orb] in H.
      destruct (N.leb_spec (256 * n - 256 * p) (blen (b_msg B))); [qlia|].
      destruct (N.ltb_spec (l_cap l) (blen (b_msg B))); (apply Some_inj in H; subst s'); (eapply (inv_rd s); try reflexivity; trivial; [now rewrite Erd|]).
      * apply bail_ok; auto.
      * cbn [MemConcProof.rd_ok]. split; [split; trivial|]. exists B. auto.
  - (* RSeq *)
    destruct V4 as ((V4 & Vc) & B & C & Es). pose proof V4 as (L1 & L2 & L3 & L4 & L5 & L6 & L7 & L8). pose proof C as (C1 & C2 & C3 & b & E).
    (apply Some_inj in H; subst s'). eapply (inv_rd s); try reflexivity; trivial; [now rewrite Erd|]. cbn [MemConcProof.rd_ok].
    split; [split; trivial|]. split; trivial. exists B. split; trivial. split; trivial. pose proof (cost_pos (b_msg B)). split; [|unfold bend; qlia].
    rewrite L3. apply (fin_seq _ _ _ _ _ _ _ _ _ _ (l_grb l) V1 E C3); [qlia|unfold bend; qlia].
  - (* RScan *)
    destruct V4 as ((V4 & Vc) & Ee & B & C & Es & Eq & Hge). pose proof V4 as (L1 & L2 & L3 & L4 & L5 & L6 & L7 & L8). pose proof C as (C1 & C2 & C3 & b & E).
    pose proof (cur_end _ _ _ _ _ _ V4 C) as He.
    assert (St : ge = bend B -> forall s', Some (with_rd s (if calc_nodes size =? range_count n (l_rb l) e then RSize2 l e [] ge
      else RTop (next_rb n (with_rb l (l_tmo l) (or_ret (l_ret l) E_BLOCK_NODE_NUM))))) = Some s' -> Inv s').
    { intros Eb s1 H1. rewrite (stop_ok s l size sq e ge B) in H1; trivial. injection H1 as <-.
      eapply (inv_rd s); try reflexivity; trivial; [now rewrite Erd|]. cbn [MemConcProof.rd_ok]. split; trivial. split; trivial.
      exists B. split; trivial. split; trivial. split; [qlia|]. split; [cbn; qlia|reflexivity]. }
    destruct (N.eqb_spec e (l_w l)) as [Ew|Ew].
    { apply St; trivial. rewrite Ee, L4 in Ew. apply (win _ _ (s_gr s)) in Ew; qlia. }
    destruct (N.eqb_spec (s_mem s (CSeq e)) sq) as [Sq|Sq]; cbn [negb] in H.
    2: { apply St; trivial. destruct (N.eq_dec ge (bend B)); trivial. exfalso. apply Sq. rewrite Ee, Eq.
         apply (fin_seq _ _ _ _ _ _ _ _ _ _ ge V1 E C3); qlia. }
    assert (Lb : ge < bend B).
    { destruct (N.eq_dec ge (bend B)); [|qlia]. exfalso. rewrite Eq in Sq. pose proof (cost_pos (b_msg B)).
      destruct (c_own _ _ _ _ _ _ _ _ V1 b B e E) as (x & X & Y); trivial; [unfold bend; qlia|subst e; apply N.mod_lt; qlia|].
      assert (ge <> l_gw l) by (intros Z; apply Ew; congruence).
      rewrite Ee in Y. apply (win _ _ (s_gr s)) in Y; qlia. }
    destruct (N.eqb_spec e (l_rb l)) as [Er|Er]; (apply Some_inj in H; subst s'); (eapply (inv_rd s); try reflexivity; trivial; [now rewrite Erd|]);
      cbn [MemConcProof.rd_ok]; (split; [split; trivial|]); (split; [trivial|]); exists B; (split; [trivial|]); (split; [trivial|]); (split; [trivial|]); [qlia|].
    assert (ge <> l_grb l) by (intros Z; apply Er; congruence). qlia.
  - (* RScanF *)
    destruct V4 as ((V4 & Vc) & Ee & B & C & Es & Eq & Hge). pose proof V4 as (L1 & L2 & L3 & L4 & L5 & L6 & L7 & L8). pose proof C as (C1 & C2 & C3 & b & E).
    rewrite Ee, (mid_flag _ _ _ _ _ _ _ _ _ _ ge V1 E) in H by qlia. rewrite <- Ee in H.
    (apply Some_inj in H; subst s'). eapply (inv_rd s); try reflexivity; trivial; [now rewrite Erd|]. cbn [MemConcProof.rd_ok].
    split; [split; trivial|]. split; trivial. exists B. repeat (split; trivial); qlia.
  - (* RClr *)
    destruct V4 as ((V4 & Vc) & Ee & B & C & Es & Eq & Hge). pose proof V4 as (L1 & L2 & L3 & L4 & L5 & L6 & L7 & L8). pose proof C as (C1 & C2 & C3 & b & E).
    pose proof (cur_end _ _ _ _ _ _ V4 C) as He.
    (apply Some_inj in H; subst s'). rewrite Ee.
    constructor; cbn [with_rd with_blks with_mem with_w s_mem s_r s_w s_rd s_gr s_gw s_blks s_ops s_log clr_of]; trivial.
    + apply core_clear; trivial; [qlia|]. intros b' B' E' X Y. exfalso. pose proof (cost_pos (b_msg B')).
      assert (b' = b) by (apply (chain_uniq _ _ _ _ _ _ _ ge Hch E' E); unfold bend in *; qlia). subst. congruence.
    + cbn [MemConcProof.rd_ok]. split; [split; trivial|]. split; [apply nxt; qlia|]. exists B. repeat (split; trivial); qlia.
  - (* RSize2 *)
    destruct V4 as (V4 & Ee & B & C & Eg & Vc & La & Ea). pose proof V4 as (L1 & L2 & L3 & L4 & L5 & L6 & L7 & L8). pose proof C as (C1 & C2 & C3 & b & E).
    pose proof (c_blk _ _ _ _ _ _ _ _ V1 b B E) as [[F1 F2] _].
    destruct (Nat.ltb_spec (length acc) 8) as [La2|La2].
    + (apply Some_inj in H; subst s'). eapply (inv_rd s); try reflexivity; trivial; [now rewrite Erd|]. cbn [MemConcProof.rd_ok]. split; trivial. split; trivial.
      exists B. split; trivial. split; trivial. split; trivial. rewrite app_length. cbn [length]. split; [qlia|]. rewrite Nat.add_1_r.
      rewrite (firstn_S_nth 0) by (rewrite word_bytes_length; qlia). rewrite <- Ea. apply (f_equal (fun z => acc ++ [z])).
      rewrite L3, <- C2, (fin_size _ _ _ _ _ _ _ _ b B (N.of_nat (length acc)) V1 E C3) by qlia. now rewrite Nat2N.id.
    + assert (Es : bytes_word acc = blen (b_msg B)).
      { rewrite Ea. rewrite firstn_all2 by (rewrite word_bytes_length; qlia). apply bytes_word_bytes. cbn [Nat.mul Nat.add N.of_nat]. qlia. }
      rewrite Es in H. (apply Some_inj in H; subst s'). eapply (inv_rd s); try reflexivity; trivial; [now rewrite Erd|]. cbn [MemConcProof.rd_ok].
      split; [split; trivial|]. split; trivial. exists B. split; trivial. split; trivial. split; trivial. split; [cbn; qlia|reflexivity].
  - (* RCopy *)
    destruct V4 as ((V4 & Vc) & Ee & B & C & Es & Eg & La & Ea). pose proof V4 as (L1 & L2 & L3 & L4 & L5 & L6 & L7 & L8). pose proof C as (C1 & C2 & C3 & b & E).
    destruct (N.ltb_spec (blen acc) size) as [Ls|Ls].
    + (apply Some_inj in H; subst s'). eapply (inv_rd s); try reflexivity; trivial; [now rewrite Erd|]. cbn [MemConcProof.rd_ok]. split; [split; trivial|]. split; trivial.
      exists B. split; trivial. split; trivial. split; trivial. rewrite Es in Ls. unfold blen in Ls.
      rewrite app_length. cbn [length]. split; [qlia|]. rewrite Nat.add_1_r, (firstn_S_nth 0) by qlia. rewrite <- Ea. apply (f_equal (fun z => acc ++ [z])).
      rewrite L3, <- C2. unfold blen. rewrite (fin_payload n p hash _ _ _ _ _ b B (N.of_nat (length acc)) V1' E C3); [now rewrite Nat2N.id|qlia|unfold blen; qlia].
    + (apply Some_inj in H; subst s'). eapply (inv_rd s); try reflexivity; trivial; [now rewrite Erd|]. cbn [MemConcProof.rd_ok]. split; [split; [trivial|unfold blen in *; qlia]|]. split; trivial.
      exists B. split; trivial. rewrite Es in Ls. unfold blen in Ls. split; [rewrite Ea; apply firstn_all2; qlia|]. split; trivial. split; [cbn; qlia|reflexivity].
  - (* RHash *)
    destruct V4 as ((V4 & Vc) & Ee & B & C & Eo & Eg & La & Ea). pose proof V4 as (L1 & L2 & L3 & L4 & L5 & L6 & L7 & L8). pose proof C as (C1 & C2 & C3 & b & E).
    destruct (Nat.ltb_spec (length acc) 8) as [La2|La2].
    + (apply Some_inj in H; subst s'). eapply (inv_rd s); try reflexivity; trivial; [now rewrite Erd|]. cbn [MemConcProof.rd_ok]. split; [split; trivial|]. split; trivial.
      exists B. split; trivial. split; trivial. split; trivial. rewrite app_length. cbn [length]. split; [qlia|]. rewrite Nat.add_1_r.
      rewrite (firstn_S_nth 0) by (rewrite word_bytes_length; qlia). rewrite <- Ea. apply (f_equal (fun z => acc ++ [z])).
      rewrite L3, <- C2, (fin_check n p hash _ _ _ _ _ b B (N.of_nat (length acc)) V1' E C3) by qlia. now rewrite Nat2N.id.
    + assert (Es : bytes_word acc = fast_check hash (b_msg B)).
      { rewrite Ea. rewrite firstn_all2 by (rewrite word_bytes_length; qlia). apply bytes_word_bytes. apply fast_check_lt. }
      pose proof (cur_end _ _ _ _ _ _ V4 C) as He. pose proof (cost_pos (b_msg B)).
      rewrite Es, Eo, N.eqb_refl in H. (apply Some_inj in H; subst s'). eapply (inv_rd s); try reflexivity; trivial; [now rewrite Erd|]. cbn [MemConcProof.rd_ok].
      split; trivial. split; trivial. split; [unfold bend in *; qlia|]. right. split; trivial. exists b, B. split; trivial. split; trivial. split; [qlia|].
      split; trivial. split; trivial. rewrite C2. exact L8.
  - (* RStore *)
    (apply Some_inj in H; subst s'). destruct V4 as (Eo & Ee & Hge & Hc).
    constructor; cbn [with_result s_mem s_r s_w s_rd s_gr s_gw s_blks s_ops s_log clr_of]; trivial.
    + now apply core_release in V1.
    + destruct (N.eqb_spec ori e); congruence.
    + cbn [MemConcProof.rd_ok]. split; [qlia|]. destruct Hc as [[_ S]|(_ & b & B & E & F & G & Eg & _)]; intros b' B' E' X.
      * apply (S b' B' E'); qlia.
      * exfalso. subst ge. pose proof (cost_pos (b_msg B)). destruct (Nat.lt_trichotomy b' b) as [Lb|[Lb|Lb]].
        -- pose proof (chain_order _ _ _ _ _ _ _ Hch E' E Lb). unfold bend in *. qlia.
        -- subst. rewrite E in E'. injection E' as <-. qlia.
        -- pose proof (chain_order _ _ _ _ _ _ _ Hch E E' Lb). qlia.
    + apply ops_env with (mem := s_mem s) (gr := s_gr s) (bs := s_blks s); trivial; [qlia| |].
      * intros b' B' E'. exists B'. repeat split; trivial.
      * intros b' B' E'. eauto.
    + unfold delivered in *. cbn [with_result s_log]. rewrite filter_app, map_app, V6. cbn [filter fst].
      destruct Hc as [[Hc S]|(-> & b & B & E & F & G & -> & -> & S)].
      * rewrite (cons_none (s_gr s) ge) by (trivial; qlia). destruct Hc as [-> | ->]; apply app_nil_r.
      * symmetry. apply (cons_one _ _ _ _ Hch b); trivial. destruct (b_skip B) eqn:Sk; trivial.
        apply (c_skip _ _ _ _ _ _ _ _ V1 b B E) in Sk. congruence.
    + apply Forall_app. split; trivial. constructor; [|constructor]. unfold code_ok. cbn [fst].
      destruct Hc as [[[-> | ->] _]|(-> & _)]; auto.
Qed.

Lemma step_inv l s s' : Inv s -> fair n l s -> step n p timeout hash l s = Some s' -> Inv s'.
Proof.
  intros V Fr H. destruct l as [m tries|i weak|cap|now]; cbn [step] in H.
  - injection H as <-. cbn [fair] in Fr. pose proof V as [V1 V2 V3 V4 V5 V6 V7]. apply (inv_ops n p hash s); trivial.
    cbn [with_ops s_ops]. destruct V5 as (O1 & O2 & O3). split; [|split].
    + intros i o E. rewrite nth_error_snoc in E. destruct (Nat.eqb_spec i (length (s_ops s))); [|now apply O1 in E].
      injection E as <-. split; [split; trivial; exact I|]. intros q X. discriminate.
    + intros i j o o' q E E' X X'. rewrite nth_error_snoc in E. rewrite nth_error_snoc in E'.
      destruct (Nat.eqb_spec i (length (s_ops s))); [injection E as <-; discriminate|].
      destruct (Nat.eqb_spec j (length (s_ops s))); [injection E' as <-; discriminate|]. now apply (O2 i j o o' q).
    + intros i j o o' q E E' X X'. rewrite nth_error_snoc in E. rewrite nth_error_snoc in E'.
      destruct (Nat.eqb_spec i (length (s_ops s))); [injection E as <-; discriminate|].
      destruct (Nat.eqb_spec j (length (s_ops s))); [injection E' as <-; discriminate|]. now apply (O3 i j o o' q).
  - now apply (wstep_inv n p hash i weak s).
  - destruct (s_rd s) eqn:Erd; try discriminate. injection H as <-. pose proof (v_rd _ _ _ _ V) as R. rewrite Erd in R.
    eapply (inv_rd s); try reflexivity; trivial; [now rewrite Erd|]. split; [reflexivity|exact R].
  - now apply (rstep_inv now s).
Qed.

Lemma reach_inv s : 1 <= n < 2 ^ 40 -> p + 1 <= n -> reach n p timeout hash s -> Inv s.
Proof.
  intros Hn Hp R. induction R as [|s l s' R IH F S]; [now apply inv_init|]. now apply (step_inv l s).
Qed.
End P.
