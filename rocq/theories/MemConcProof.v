(** The invariant of the concurrent memory channel is preserved by every fair step. *)
From Verif Require Import Base MemSpec Mem MemProof MemConc MemConcLib MemConcStores MemConcInv MemConcSpec.
Local Open Scope N_scope.
Local Ltac Zify.zify_post_hook ::= idtac.

Definition clr_of (rd : rpc) (gr : N) : N :=
  match rd with
  | RIdle => gr | RLoadW _ _ => gr
  | RTop l => l_grb l | RStart l => l_grb l | RNoW l _ => l_grb l | RFast l _ => l_grb l | RTimer l _ => l_grb l
  | RSkip l => l_grb l | RSize l _ => l_grb l | RSeq l _ => l_grb l
  | RScan _ _ _ _ ge => ge | RScanF _ _ _ _ ge => ge | RClr _ _ _ _ ge => ge
  | RSize2 _ _ _ ge => ge | RCopy _ _ _ _ ge => ge | RHash _ _ _ _ ge => ge | RStore _ _ _ _ ge => ge
  end.

(** Messages of the blocks consumed and not passed over. *)
Definition cons_ (gr : N) (bs : list blk) : list bytes := map b_msg (filter (fun B => (bend B <=? gr) && negb (b_skip B)) bs).
Lemma cons_cons gr B bs : cons_ gr (B :: bs) = (if (bend B <=? gr) && negb (b_skip B) then [b_msg B] else []) ++ cons_ gr bs.
Proof. unfold cons_. cbn. now destruct (_ && _). Qed.
Lemma cons_app gr a b : cons_ gr (a ++ b) = cons_ gr a ++ cons_ gr b.
Proof. unfold cons_. now rewrite filter_app, map_app. Qed.
Lemma cons_set gr bs i B B' : nth_error bs i = Some B -> same B B' -> b_skip B' = b_skip B -> cons_ gr (set_nth i B' bs) = cons_ gr bs.
Proof.
  revert i. induction bs as [|x bs IH]; intros i E Sm Sk; [destruct i; discriminate|]. destruct i as [|i].
  - injection E as ->. change (set_nth 0 B' (B :: bs)) with (B' :: bs). rewrite !cons_cons, (same_bend _ _ Sm), Sk.
    destruct Sm as (_ & -> & _). reflexivity.
  - change (set_nth (S i) B' (x :: bs)) with (x :: set_nth i B' bs). rewrite !cons_cons. f_equal. now apply IH.
Qed.
Lemma cons_skip gr x bs : gr <= x -> cons_ gr (skip_at x bs) = cons_ gr bs.
Proof.
  intros L. induction bs as [|B bs IH]; trivial. cbn [skip_at map]. fold (skip_at x bs). rewrite !cons_cons, IH. f_equal.
  rewrite (same_bend _ _ (same_skip x B)).
  destruct (N.leb_spec (b_pos B) x); cbn [andb]; trivial. destruct (N.ltb_spec x (b_pos B + cost (b_msg B))); trivial.
  assert (bend B <=? gr = false) as -> by (apply N.leb_gt; unfold bend; lia). reflexivity.
Qed.
Lemma cons_empty gr bs : (forall b B, nth_error bs b = Some B -> gr < bend B) -> cons_ gr bs = [].
Proof.
  induction bs as [|B bs IH]; intros H; trivial. rewrite cons_cons, IH by (intros b B'; apply (H (S b))).
  specialize (H O B eq_refl). now rewrite (proj2 (N.leb_gt _ _)) by lia.
Qed.
(** Releasing exactly one block. *)
Lemma cons_one a w gr bs : chain a bs w -> forall b B, nth_error bs b = Some B -> b_skip B = false -> gr <= b_pos B ->
  (forall b' B', nth_error bs b' = Some B' -> b_pos B' < b_pos B -> gr < bend B' -> b_skip B' = true) ->
  cons_ (bend B) bs = cons_ gr bs ++ [b_msg B].
Proof.
  revert a. induction bs as [|x bs IH]; intros a Ch b B E Sk G S; [destruct b; discriminate|]. destruct Ch as [C1 C2]. rewrite !cons_cons.
  destruct b as [|b].
  - injection E as ->. pose proof (cost_pos (b_msg B)).
    assert (L : bend B <=? gr = false) by (apply N.leb_gt; unfold bend; lia). rewrite N.leb_refl, L, Sk. cbn [negb andb app].
    assert (X : forall b' B', nth_error bs b' = Some B' -> bend B < bend B').
    { intros b' B' E'. apply (chain_nth _ _ _ _ _ C2) in E'. pose proof (cost_pos (b_msg B')). unfold bend in *. lia. }
    rewrite !cons_empty; trivial. intros b' B' E'. apply X in E'. unfold bend in *. lia.
  - cbn in E. rewrite (IH _ C2 b B E Sk G); [|intros b' B' E'; apply (S (Datatypes.S b') B' E')].
    rewrite app_assoc. do 2 f_equal. apply (chain_nth _ _ _ _ _ C2) in E. pose proof (cost_pos (b_msg B)). pose proof (cost_pos (b_msg x)).
    rewrite (proj2 (N.leb_le _ _)) by (unfold bend in *; lia). destruct (N.leb_spec (bend x) gr); trivial.
    specialize (S O x eq_refl). rewrite S by (unfold bend in *; lia). reflexivity.
Qed.
Lemma cons_none gr gr' bs : gr <= gr' ->
  (forall b B, nth_error bs b = Some B -> b_pos B < gr' -> gr < bend B -> b_skip B = true) -> cons_ gr' bs = cons_ gr bs.
Proof.
  intros L. induction bs as [|x bs IH]; intros S; trivial. rewrite !cons_cons, IH by (intros b; apply (S (Datatypes.S b))). f_equal.
  specialize (S O x eq_refl). pose proof (cost_pos (b_msg x)).
  destruct (N.leb_spec (bend x) gr), (N.leb_spec (bend x) gr'); trivial; try lia.
  rewrite S by (unfold bend in *; lia). reflexivity.
Qed.
(** Consumed messages are a prefix of all messages kept. *)
Lemma cons_prefix a w gr bs : chain a bs w -> exists r, map b_msg (filter (fun B => negb (b_skip B)) bs) = cons_ gr bs ++ r.
Proof.
  revert a. induction bs as [|x bs IH]; intros a Ch; [now exists []|]. destruct Ch as [C1 C2].
  destruct (N.leb_spec (bend x) gr) as [L|L].
  - destruct (IH _ C2) as (r & E). exists r. rewrite cons_cons, (proj2 (N.leb_le _ _) L). cbn [filter andb].
    destruct (negb (b_skip x)); cbn [map app]; now rewrite E.
  - eexists. rewrite cons_empty; [reflexivity|]. intros [|b] B E; [injection E as <-; assumption|].
    apply (chain_nth _ _ _ _ _ C2) in E. pose proof (cost_pos (b_msg B)). unfold bend in *. lia.
Qed.

Section P.
Variables (n p timeout : N) (hash : bytes -> N).
Notation core := (core n p hash).
Notation stores_of := (stores_of n hash).
Notation fits := (fits n p).

Definition loc_ok (r gr gw : N) (bs : list blk) (l : loc) : Prop :=
  l_ori l = r /\ l_ret l = 0%Z /\ l_rb l = l_grb l mod n /\ l_w l = l_gw l mod n /\ gr <= l_grb l <= l_gw l /\ l_gw l <= gw /\
  (forall b B, nth_error bs b = Some B -> ~ (b_pos B < l_gw l < bend B)) /\
  (forall b B, nth_error bs b = Some B -> b_pos B < l_grb l -> gr < bend B -> b_skip B = true).
Definition locc (r gr gw : N) (bs : list blk) (l : loc) (size : N) : Prop := loc_ok r gr gw bs l /\ size <= l_cap l.
Definition cur (bs : list blk) (l : loc) (B : blk) : Prop :=
  l_grb l < l_gw l /\ b_pos B = l_grb l /\ b_fin B = true /\ exists b, nth_error bs b = Some B.
Definition straddle (gr gw : N) (bs : list blk) : Prop :=
  gr <= gw /\ (forall b B, nth_error bs b = Some B -> b_pos B < gr < bend B -> b_skip B = true).
Definition rd_ok (r gr gw : N) (bs : list blk) (rd : rpc) : Prop :=
  match rd with
  | RIdle => straddle gr gw bs
  | RLoadW cap ori => ori = r /\ straddle gr gw bs
  | RTop l => loc_ok r gr gw bs l
  | RStart l => loc_ok r gr gw bs l /\ l_grb l < l_gw l /\ (forall b B, nth_error bs b = Some B -> b_pos B = l_grb l -> b_fin B = true)
  | RNoW l _ | RFast l _ | RTimer l _ | RSkip l => loc_ok r gr gw bs l /\ l_grb l < l_gw l
  | RSize l acc => loc_ok r gr gw bs l /\ exists B, cur bs l B /\ (length acc <= 8)%nat /\ acc = firstn (length acc) (word_bytes 8 (blen (b_msg B)))
  | RSeq l size => locc r gr gw bs l size /\ exists B, cur bs l B /\ size = blen (b_msg B)
  | RScan l size sq e ge =>
      locc r gr gw bs l size /\ e = ge mod n /\ exists B, cur bs l B /\ size = blen (b_msg B) /\ sq = b_seq B /\ l_grb l <= ge <= bend B
  | RScanF l size sq e ge =>
      locc r gr gw bs l size /\ e = ge mod n /\ exists B, cur bs l B /\ size = blen (b_msg B) /\ sq = b_seq B /\ l_grb l < ge < bend B
  | RClr l size sq e ge =>
      locc r gr gw bs l size /\ e = ge mod n /\ exists B, cur bs l B /\ size = blen (b_msg B) /\ sq = b_seq B /\ l_grb l <= ge < bend B
  | RSize2 l e acc ge =>
      loc_ok r gr gw bs l /\ e = ge mod n /\ exists B, cur bs l B /\ ge = bend B /\ blen (b_msg B) <= l_cap l /\
      (length acc <= 8)%nat /\ acc = firstn (length acc) (word_bytes 8 (blen (b_msg B)))
  | RCopy l size e acc ge =>
      locc r gr gw bs l size /\ e = ge mod n /\ exists B, cur bs l B /\ size = blen (b_msg B) /\ ge = bend B /\
      (length acc <= length (b_msg B))%nat /\ acc = firstn (length acc) (b_msg B)
  | RHash l out e acc ge =>
      locc r gr gw bs l (blen out) /\ e = ge mod n /\ exists B, cur bs l B /\ out = b_msg B /\ ge = bend B /\
      (length acc <= 8)%nat /\ acc = firstn (length acc) (word_bytes 8 (fast_check hash (b_msg B)))
  | RStore ori e code out ge =>
      ori = r /\ e = ge mod n /\ gr <= ge <= gw /\
      ((code = E_NO_DATA \/ code = E_BUFF_LIMIT) /\ (forall b B, nth_error bs b = Some B -> b_pos B < ge -> gr < bend B -> b_skip B = true) \/
       code = OK /\ exists b B, nth_error bs b = Some B /\ b_fin B = true /\ gr <= b_pos B /\ ge = bend B /\ out = b_msg B /\
         (forall b B', nth_error bs b = Some B' -> b_pos B' < b_pos B -> gr < bend B' -> b_skip B' = true))
  end.

(** Stability of the reader's knowledge. *)
Definition evolves (gw : N) (bs bs' : list blk) : Prop :=
  (forall b B, nth_error bs b = Some B -> exists B', nth_error bs' b = Some B' /\ same B B' /\ (b_fin B = true -> b_fin B' = true) /\ b_skip B' = b_skip B) /\
  (forall b B', nth_error bs' b = Some B' -> gw <= b_pos B' \/ exists B, nth_error bs b = Some B).
Lemma ev_back gw bs bs' b B' : evolves gw bs bs' -> nth_error bs' b = Some B' -> b_pos B' < gw ->
  exists B, nth_error bs b = Some B /\ same B B' /\ (b_fin B = true -> b_fin B' = true) /\ b_skip B' = b_skip B.
Proof.
  intros [V1 V2] E L. destruct (V2 _ _ E) as [|[B EB]]; [lia|]. exists B. split; trivial.
  destruct (V1 _ _ EB) as (B2 & E2 & X). rewrite E in E2. injection E2 as <-. exact X.
Qed.
Lemma loc_mono r gr gw gw' bs bs' l : loc_ok r gr gw bs l -> gw <= gw' -> evolves gw bs bs' -> loc_ok r gr gw' bs' l.
Proof.
  intros (L1 & L2 & L3 & L4 & L5 & L6 & L7 & L8) G V. unfold loc_ok. repeat (split; [trivial; lia|]). split.
  - intros b B' E X. destruct (ev_back _ _ _ _ _ V E ltac:(lia)) as (B & EB & Sm & _). apply (L7 b B EB).
    rewrite (same_bend _ _ Sm) in X. destruct Sm as (Sp & _). now rewrite Sp in X.
  - intros b B' E X Y. destruct (ev_back _ _ _ _ _ V E ltac:(lia)) as (B & EB & Sm & _ & Sk). rewrite Sk.
    rewrite (same_bend _ _ Sm) in Y. destruct Sm as (Sp & _). rewrite Sp in X. now apply (L8 b B).
Qed.
Lemma cur_mono gw bs bs' l B : cur bs l B -> evolves gw bs bs' -> exists B', cur bs' l B' /\ same B B'.
Proof.
  intros (C1 & C2 & C3 & b & C4) [V1 _]. destruct (V1 _ _ C4) as (B' & E' & Sm & Fi & _). exists B'. split; trivial.
  repeat split; trivial; [|auto|eauto]. destruct Sm as (-> & _). assumption.
Qed.
Lemma rd_mono r gr gw gw' bs bs' rd : rd_ok r gr gw bs rd -> gw <= gw' -> evolves gw bs bs' -> rd_ok r gr gw' bs' rd.
Proof.
  intros H G V. pose proof (fun l (X : loc_ok r gr gw bs l) => loc_mono _ _ _ _ _ _ _ X G V) as LM.
  assert (SM : straddle gr gw bs -> straddle gr gw' bs').
  { intros [S1 S2]. split; [lia|]. intros b B' E X. destruct (ev_back _ _ _ _ _ V E ltac:(lia)) as (B & EB & Sm & _ & Sk). rewrite Sk.
    rewrite (same_bend _ _ Sm) in X. destruct Sm as (Sp & _). rewrite Sp in X. now apply (S2 b B). }
  destruct rd; cbn [rd_ok] in *; trivial.
  - auto.
  - destruct H; auto.
  - auto.
  - destruct H as (H1 & H2 & H3). split; [auto|]. split; trivial. intros b B' E X.
    pose proof H1 as (_ & _ & _ & _ & L5 & L6 & _).
    destruct (ev_back _ _ _ _ _ V E ltac:(lia)) as (B & EB & (Sp & _) & Fi & _). apply Fi. apply (H3 b B EB). congruence.
  - destruct H; auto.
  - destruct H; auto.
  - destruct H; auto.
  - destruct H; auto.
  - destruct H as (H1 & B & C & H2 & H3). split; [auto|]. destruct (cur_mono _ _ _ _ _ C V) as (B' & C' & Sm & Sm2 & _). exists B'. rewrite Sm2. auto.
  - destruct H as ([H1 H1'] & B & C & H2). split; [split; auto|]. destruct (cur_mono _ _ _ _ _ C V) as (B' & C' & Sm & Sm2 & _). exists B'. rewrite Sm2. auto.
  - destruct H as ([H1 H1'] & He & B & C & H2 & H3 & H4). split; [split; auto|]. split; trivial. destruct (cur_mono _ _ _ _ _ C V) as (B' & C' & Sm). exists B'.
    rewrite (same_bend _ _ Sm). destruct Sm as (_ & -> & ->). auto.
  - destruct H as ([H1 H1'] & He & B & C & H2 & H3 & H4). split; [split; auto|]. split; trivial. destruct (cur_mono _ _ _ _ _ C V) as (B' & C' & Sm). exists B'.
    rewrite (same_bend _ _ Sm). destruct Sm as (_ & -> & ->). auto.
  - destruct H as ([H1 H1'] & He & B & C & H2 & H3 & H4). split; [split; auto|]. split; trivial. destruct (cur_mono _ _ _ _ _ C V) as (B' & C' & Sm). exists B'.
    rewrite (same_bend _ _ Sm). destruct Sm as (_ & -> & ->). auto.
  - destruct H as (H1 & He & B & C & H2 & H3 & H4 & H5). split; [auto|]. split; trivial. destruct (cur_mono _ _ _ _ _ C V) as (B' & C' & Sm). exists B'.
    rewrite (same_bend _ _ Sm). destruct Sm as (_ & -> & _). auto 10.
  - destruct H as ([H1 H1'] & He & B & C & H2 & H3 & H4 & H5). split; [split; auto|]. split; trivial. destruct (cur_mono _ _ _ _ _ C V) as (B' & C' & Sm). exists B'.
    rewrite (same_bend _ _ Sm). destruct Sm as (_ & -> & _). auto.
  - destruct H as ([H1 H1'] & He & B & C & H2 & H3 & H4 & H5). split; [split; auto|]. split; trivial. destruct (cur_mono _ _ _ _ _ C V) as (B' & C' & Sm). exists B'.
    rewrite (same_bend _ _ Sm). destruct Sm as (_ & -> & _). auto.
  - destruct H as (H1 & He & H2 & H3). split; [auto|]. split; trivial. split; [lia|]. destruct H3 as [[H3 H4]|(H3 & b & B & E & F & L & Ge & Out & H4)].
    + left. split; trivial. intros b B' E X Y. destruct (ev_back _ _ _ _ _ V E ltac:(lia)) as (B & EB & Sm & _ & Sk). rewrite Sk.
      rewrite (same_bend _ _ Sm) in Y. destruct Sm as (Sp & _). rewrite Sp in X. now apply (H4 b B).
    + right. split; trivial. destruct (proj1 V _ _ E) as (B' & E' & Sm & Fi & _). exists b, B'. split; trivial. split; [auto|].
      rewrite (same_bend _ _ Sm). destruct Sm as (Sp & -> & _). rewrite Sp. repeat (split; trivial).
      intros b2 B2 E2 X Y. unfold bend in *. pose proof (cost_pos (b_msg B)).
      destruct (ev_back _ _ _ _ _ V E2 ltac:(lia)) as (B3 & EB & Sm & _ & Sk). rewrite Sk.
      destruct Sm as (Sp3 & Sm3 & _). rewrite Sp3 in X, Y. rewrite Sm3 in Y. now apply (H4 b2 B3).
Qed.

(** Writers. *)
Definition block_of (o : op) : option nat := match o_pc o with WStore b _ _ _ => Some b | WOr b _ _ _ => Some b | _ => None end.
Definition op_ok (gr gw : N) (bs : list blk) (o : op) : Prop :=
  blen (o_msg o) < 2 ^ 63 /\
  match o_pc o with
  | WLoadW q => fits (o_msg o)
  | WLoadR q wl g => fits (o_msg o) /\ wl = g mod n /\ g <= gw
  | WCas q wl g r => fits (o_msg o) /\ wl = g mod n /\ g <= gw /\ r <= gr /\ g + p + 1 <= r + n /\ cost (o_msg o) <= available n p (r mod n) (g mod n)
  | WStore b w q todo => exists B, nth_error bs b = Some B /\ w = b_pos B mod n /\ q = b_seq B /\ b_msg B = o_msg o /\ b_fin B = false /\
                         b_done B ++ todo = stores_of B
  | WOr b w q f => exists B, nth_error bs b = Some B /\ w = b_pos B mod n /\ q = b_seq B /\ b_msg B = o_msg o /\ b_fin B = false /\
                   b_done B = stores_of B /\ f = MF_START
  | _ => True
  end.
Definition hold_ok (mem : cell -> N) (gr : N) (bs : list blk) (o : op) : Prop :=
  forall q, holds o = Some q ->
    (forall y, y < n -> mem (CSeq y) <> q) /\ (forall b B, nth_error bs b = Some B -> gr < bend B -> b_seq B <> q).
Definition ops_ok (mem : cell -> N) (gr gw : N) (bs : list blk) (ops : list op) : Prop :=
  (forall i o, nth_error ops i = Some o -> op_ok gr gw bs o /\ hold_ok mem gr bs o) /\
  (forall i j o o' q, nth_error ops i = Some o -> nth_error ops j = Some o' -> holds o = Some q -> holds o' = Some q -> i = j) /\
  (forall i j o o' b, nth_error ops i = Some o -> nth_error ops j = Some o' -> block_of o = Some b -> block_of o' = Some b -> i = j).

Definition code_ok (x : Z * bytes) : Prop := fst x = OK \/ fst x = E_NO_DATA \/ fst x = E_BUFF_LIMIT.
Record Inv (s : st) : Prop := {
  v_core : core (s_mem s) (s_gr s) (s_gw s) (clr_of (s_rd s) (s_gr s)) (s_blks s);
  v_r : s_r s = s_gr s mod n;
  v_w : s_w s = s_gw s mod n;
  v_rd : rd_ok (s_r s) (s_gr s) (s_gw s) (s_blks s) (s_rd s);
  v_ops : ops_ok (s_mem s) (s_gr s) (s_gw s) (s_blks s) (s_ops s);
  v_out : delivered s = cons_ (s_gr s) (s_blks s);
  v_codes : Forall code_ok (s_log s)
}.

Lemma inv_init : 1 <= n < 2 ^ 40 -> p + 1 <= n -> Inv init.
Proof.
  intros. constructor.
  - now apply core_init.
  - symmetry. apply N.mod_0_l; lia.
  - symmetry. apply N.mod_0_l; lia.
  - split; [cbn; lia|]. intros b B E. destruct b; discriminate.
  - split; [|split].
    + intros i o E. destruct i; discriminate.
    + intros i j o o' q E. destruct i; discriminate.
    + intros i j o o' q E. destruct i; discriminate.
  - reflexivity.
  - constructor.
Qed.

(** Replacing one writer when memory, cursors and blocks stay the same. *)
Lemma ops_replace mem gr gw bs ops i o o' :
  ops_ok mem gr gw bs ops -> nth_error ops i = Some o -> op_ok gr gw bs o' -> hold_ok mem gr bs o' ->
  (forall q, holds o' = Some q -> holds o = Some q \/ forall j oj, nth_error ops j = Some oj -> holds oj <> Some q) ->
  (forall b, block_of o' = Some b -> block_of o = Some b \/ forall j oj, nth_error ops j = Some oj -> block_of oj <> Some b) ->
  ops_ok mem gr gw bs (set_nth i o' ops).
Proof.
  intros (O1 & O2 & O3) E Ok Hk Hh Hb. split; [|split].
  - intros j oj Ej. rewrite (nth_error_set_nth _ _ _ _ _ E) in Ej. destruct (Nat.eqb_spec j i); [injection Ej as <-; auto|now apply O1 in Ej].
  - intros j j' oj oj' q Ej Ej' Hq Hq'. rewrite (nth_error_set_nth _ _ _ _ _ E) in Ej. rewrite (nth_error_set_nth _ _ _ _ _ E) in Ej'.
    destruct (Nat.eqb_spec j i), (Nat.eqb_spec j' i); subst; trivial.
    + injection Ej as <-. destruct (Hh q Hq) as [X|X]; [now apply (O2 i j' o oj' q)|now apply X in Ej'].
    + injection Ej' as <-. destruct (Hh q Hq') as [X|X]; [now apply (O2 j i oj o q)|now apply X in Ej].
    + now apply (O2 j j' oj oj' q).
  - intros j j' oj oj' b Ej Ej' Hq Hq'. rewrite (nth_error_set_nth _ _ _ _ _ E) in Ej. rewrite (nth_error_set_nth _ _ _ _ _ E) in Ej'.
    destruct (Nat.eqb_spec j i), (Nat.eqb_spec j' i); subst; trivial.
    + injection Ej as <-. destruct (Hb b Hq) as [X|X]; [now apply (O3 i j' o oj' b)|now apply X in Ej'].
    + injection Ej' as <-. destruct (Hb b Hq') as [X|X]; [now apply (O3 j i oj o b)|now apply X in Ej].
    + now apply (O3 j j' oj oj' b).
Qed.

(** Changes made by the reader do not disturb the writers. *)
Lemma ops_env mem mem' gr gr' gw bs bs' ops :
  ops_ok mem gr gw bs ops -> (forall y, mem' (CSeq y) = mem (CSeq y)) -> gr <= gr' ->
  (forall b B, nth_error bs b = Some B -> exists B', nth_error bs' b = Some B' /\ same B B' /\ b_done B' = b_done B /\ b_fin B' = b_fin B) ->
  (forall b B', nth_error bs' b = Some B' -> exists B, nth_error bs b = Some B) ->
  ops_ok mem' gr' gw bs' ops.
Proof.
  intros (O1 & O2 & O3) Hm G V1 V2. split; [|split]; trivial. intros i o E. destruct (O1 i o E) as [[Q1 Q2] Q3]. split; [split; trivial|].
  - destruct (o_pc o); trivial.
    + destruct Q2 as (A1 & A2 & A3 & A4 & A5 & A6). repeat (split; trivial). lia.
    + destruct Q2 as (B & A1 & A2 & A3 & A4 & A5 & A6). destruct (V1 _ _ A1) as (B' & E' & Sm & D & F). exists B'. split; trivial.
      unfold MemConcInv.stores_of in *. destruct Sm as (-> & -> & ->). rewrite D, F. auto.
    + destruct Q2 as (B & A1 & A2 & A3 & A4 & A5 & A6 & A7). destruct (V1 _ _ A1) as (B' & E' & Sm & D & F). exists B'. split; trivial.
      unfold MemConcInv.stores_of in *. destruct Sm as (-> & -> & ->). rewrite D, F. auto 10.
  - intros q Hq. destruct (Q3 q Hq) as [R1 R2]. split.
    + intros y Hy. rewrite Hm. now apply R1.
    + intros b B' E' L. destruct (V2 _ _ E') as (B & EB). destruct (V1 _ _ EB) as (B2 & E2 & Sm & _). rewrite E' in E2. injection E2 as <-.
      rewrite (same_bend _ _ Sm) in L. destruct Sm as (_ & _ & ->). apply (R2 b B EB). lia.
Qed.

Lemma evolves_set gw bs b B B' : nth_error bs b = Some B -> same B B' -> (b_fin B = true -> b_fin B' = true) -> b_skip B' = b_skip B ->
  evolves gw bs (set_nth b B' bs).
Proof.
  intros E Sm F Sk. split.
  - intros j Bj Ej. rewrite (nth_error_set_nth _ _ _ _ _ E). destruct (Nat.eqb_spec j b).
    + subst. rewrite E in Ej. injection Ej as <-. eauto.
    + exists Bj. repeat split; trivial.
  - intros j Bj Ej. right. rewrite (nth_error_set_nth _ _ _ _ _ E) in Ej. destruct (Nat.eqb_spec j b); subst; eauto.
Qed.
Lemma evolves_snoc gw bs B : b_pos B = gw -> evolves gw bs (bs ++ [B]).
Proof.
  intros P. split.
  - intros j Bj Ej. exists Bj. split; [|repeat split; trivial]. rewrite nth_error_app1; trivial. apply nth_error_Some. congruence.
  - intros j Bj Ej. rewrite nth_error_snoc in Ej. destruct (Nat.eqb_spec j (length bs)); [injection Ej as <-; left; lia|right; eauto].
Qed.

(** One writer stores into its own block. *)
Lemma ops_write mem mem' gr gw bs ops i o o' b B B' :
  ops_ok mem gr gw bs ops -> nth_error ops i = Some o -> block_of o = Some b -> nth_error bs b = Some B -> same B B' ->
  (forall y, mem' (CSeq y) = mem (CSeq y) \/ mem' (CSeq y) = b_seq B) -> gr < bend B ->
  op_ok gr gw (set_nth b B' bs) o' -> holds o' = None -> (forall c, block_of o' = Some c -> c = b) ->
  ops_ok mem' gr gw (set_nth b B' bs) (set_nth i o' ops).
Proof.
  intros (O1 & O2 & O3) E Eb EB Sm Hm G Ok Hh Hb. split; [|split].
  - intros j oj Ej. rewrite (nth_error_set_nth _ _ _ _ _ E) in Ej. destruct (Nat.eqb_spec j i) as [->|Nj].
    + injection Ej as <-. split; trivial. intros q X. congruence.
    + destruct (O1 j oj Ej) as [[Q1 Q2] Q3].
      assert (Nb : forall c, block_of oj = Some c -> Nat.eqb c b = false).
      { intros c Hc. apply Nat.eqb_neq. intros ->. apply Nj. now apply (O3 j i oj o b). }
      split; [split; trivial|].
      * unfold block_of in Nb. destruct (o_pc oj); trivial.
        -- destruct Q2 as (Bj & A1 & A2). exists Bj. split; trivial. rewrite (nth_error_set_nth _ _ _ _ _ EB), Nb; trivial.
        -- destruct Q2 as (Bj & A1 & A2). exists Bj. split; trivial. rewrite (nth_error_set_nth _ _ _ _ _ EB), Nb; trivial.
      * intros q Hq. destruct (Q3 q Hq) as [R1 R2]. split.
        -- intros y Hy. destruct (Hm y) as [-> | ->]; [now apply R1|now apply (R2 b)].
        -- intros c C Ec L. rewrite (nth_error_set_nth _ _ _ _ _ EB) in Ec. destruct (Nat.eqb_spec c b); [|now apply (R2 c)].
           injection Ec as <-. destruct Sm as (_ & _ & ->). now apply (R2 b).
  - intros j j' oj oj' q Ej Ej' Hq Hq'. rewrite (nth_error_set_nth _ _ _ _ _ E) in Ej. rewrite (nth_error_set_nth _ _ _ _ _ E) in Ej'.
    destruct (Nat.eqb_spec j i), (Nat.eqb_spec j' i); subst; trivial.
    + injection Ej as <-. congruence.
    + injection Ej' as <-. congruence.
    + now apply (O2 j j' oj oj' q).
  - intros j j' oj oj' c Ej Ej' Hq Hq'. rewrite (nth_error_set_nth _ _ _ _ _ E) in Ej. rewrite (nth_error_set_nth _ _ _ _ _ E) in Ej'.
    destruct (Nat.eqb_spec j i), (Nat.eqb_spec j' i); subst; trivial.
    + injection Ej as <-. apply Hb in Hq. subst. now apply (O3 i j' o oj' b).
    + injection Ej' as <-. apply Hb in Hq'. subst. now apply (O3 j i oj o b).
    + now apply (O3 j j' oj oj' c).
Qed.

(** One writer reserves. *)
Lemma ops_reserve mem gr gw gw' bs ops i o o' q B :
  ops_ok mem gr gw bs ops -> nth_error ops i = Some o -> holds o = Some q -> b_seq B = q -> gw <= gw' ->
  op_ok gr gw' (bs ++ [B]) o' -> holds o' = None -> block_of o' = Some (length bs) ->
  ops_ok mem gr gw' (bs ++ [B]) (set_nth i o' ops).
Proof.
  intros (O1 & O2 & O3) E Hq Sq G Ok Hh Hb.
  assert (Lt : forall j oj c, nth_error ops j = Some oj -> block_of oj = Some c -> (c < length bs)%nat).
  { intros j oj c Ej Hc. destruct (O1 j oj Ej) as [[_ Q2] _]. unfold block_of in Hc. apply nth_error_Some.
    destruct (o_pc oj); try discriminate; injection Hc as ->; destruct Q2 as (Bj & -> & _); discriminate. }
  split; [|split].
  - intros j oj Ej. rewrite (nth_error_set_nth _ _ _ _ _ E) in Ej. destruct (Nat.eqb_spec j i) as [->|Nj].
    + injection Ej as <-. split; trivial. intros q' X. congruence.
    + destruct (O1 j oj Ej) as [[Q1 Q2] Q3]. split; [split; trivial|].
      * destruct (o_pc oj); trivial.
        -- destruct Q2 as (? & ? & ?). repeat split; trivial; try apply H. lia.
        -- destruct Q2 as (? & ? & ? & ?). repeat (split; trivial). lia.
        -- destruct Q2 as (Bj & A1 & A2). exists Bj. split; trivial. rewrite nth_error_app1; trivial. apply nth_error_Some. congruence.
        -- destruct Q2 as (Bj & A1 & A2). exists Bj. split; trivial. rewrite nth_error_app1; trivial. apply nth_error_Some. congruence.
      * intros q' Hq'. destruct (Q3 q' Hq') as [R1 R2]. split; trivial. intros c C Ec L. rewrite nth_error_snoc in Ec.
        destruct (Nat.eqb_spec c (length bs)); [|now apply (R2 c)]. injection Ec as <-. rewrite Sq. intros <-. apply Nj. now apply (O2 j i oj o q).
  - intros j j' oj oj' q' Ej Ej' Hj Hj'. rewrite (nth_error_set_nth _ _ _ _ _ E) in Ej. rewrite (nth_error_set_nth _ _ _ _ _ E) in Ej'.
    destruct (Nat.eqb_spec j i), (Nat.eqb_spec j' i); subst; trivial.
    + injection Ej as <-. congruence.
    + injection Ej' as <-. congruence.
    + now apply (O2 j j' oj oj' q').
  - intros j j' oj oj' c Ej Ej' Hj Hj'. rewrite (nth_error_set_nth _ _ _ _ _ E) in Ej. rewrite (nth_error_set_nth _ _ _ _ _ E) in Ej'.
    destruct (Nat.eqb_spec j i), (Nat.eqb_spec j' i); subst; trivial.
    + injection Ej as <-. rewrite Hb in Hj. injection Hj as <-. specialize (Lt _ _ _ Ej' Hj'). lia.
    + injection Ej' as <-. rewrite Hb in Hj'. injection Hj' as <-. specialize (Lt _ _ _ Ej Hj). lia.
    + now apply (O3 j j' oj oj' c).
Qed.

(** Steps that change at most the list of writers. *)
Lemma inv_ops s s' : Inv s -> s_mem s' = s_mem s -> s_r s' = s_r s -> s_w s' = s_w s -> s_rd s' = s_rd s -> s_log s' = s_log s ->
  s_gr s' = s_gr s -> s_gw s' = s_gw s -> s_blks s' = s_blks s ->
  ops_ok (s_mem s) (s_gr s) (s_gw s) (s_blks s) (s_ops s') -> Inv s'.
Proof.
  intros [V1 V2 V3 V4 V5 V6 V7] E1 E2 E3 E4 E5 E6 E7 E8 O. constructor; unfold delivered; rewrite ?E1, ?E2, ?E3, ?E4, ?E5, ?E6, ?E7, ?E8; trivial.
Qed.
Lemma inv_op s s' i o o' : Inv s -> nth_error (s_ops s) i = Some o ->
  s_mem s' = s_mem s -> s_r s' = s_r s -> s_w s' = s_w s -> s_rd s' = s_rd s -> s_log s' = s_log s ->
  s_gr s' = s_gr s -> s_gw s' = s_gw s -> s_blks s' = s_blks s -> s_ops s' = set_nth i o' (s_ops s) ->
  op_ok (s_gr s) (s_gw s) (s_blks s) o' -> hold_ok (s_mem s) (s_gr s) (s_blks s) o' ->
  (forall q, holds o' = Some q -> holds o = Some q \/ forall j oj, nth_error (s_ops s) j = Some oj -> holds oj <> Some q) ->
  (forall b, block_of o' = Some b -> block_of o = Some b) -> Inv s'.
Proof.
  intros V E E1 E2 E3 E4 E5 E6 E7 E8 Eo Ok Hk Hh Hb. apply (inv_ops s); trivial. rewrite Eo. apply (ops_replace _ _ _ _ _ _ o); trivial; [apply V|]. auto.
Qed.

Lemma nxt a k : 1 <= n -> k <= n -> next_index n (a mod n) k = (a + k) mod n.
Proof.
  intros. unfold next_index. rewrite N.add_mod_idemp_l by lia. reflexivity.
Qed.

Lemma avail_room gr0 gr gw k : 1 <= n -> gr0 <= gr -> gr <= gw -> gw + p + 1 <= gr0 + n -> 1 <= k ->
  k <= available n p (gr0 mod n) (gw mod n) -> gw + k + p + 1 <= gr + n.
Proof.
  intros Hn H1 H2 H3 H4 H5.
  assert (Es : gw mod n = ((gr0 mod n) + (gw - gr0)) mod n) by (rewrite N.add_mod_idemp_l by lia; f_equal; lia).
  rewrite Es, avail_spec in H5; clear Es; [lia| |lia]. apply N.mod_lt. lia.
Qed.

Lemma wstep_inv i weak s s' : Inv s -> fair n (LW i weak) s -> wstep n p hash i weak s = Some s' -> Inv s'.
Proof.
  intros V Fr H. unfold wstep in H. cbn [fair] in Fr. destruct (nth_error (s_ops s) i) as [o|] eqn:E; [|discriminate].
  pose proof V as [V1 V2 V3 V4 V5 V6 V7]. pose proof V5 as (O1 & O2 & O3). destruct (O1 i o E) as [[Q1 Q2] Q3].
  pose proof (c_n _ _ _ _ _ _ _ _ V1) as Hn. pose proof (c_room _ _ _ _ _ _ _ _ V1) as Hroom. pose proof (c_clr _ _ _ _ _ _ _ _ V1) as Hclr.
  rewrite (calc_nodes_cost (o_msg o) Q1) in H. destruct (o_pc o) as [ |sq|sq wl gw|sq wl gw gr|b w sq todo|b w sq f|w sq|code] eqn:Epc.
  - (* WFetch *)
    destruct (N.eqb_spec (blen (o_msg o)) 0).
    { injection H as <-. apply (inv_op s _ i o (pc o (WRet OK))); trivial; try reflexivity; try discriminate; split; trivial; exact I. }
    destruct (N.leb_spec (n - p) (cost (o_msg o))).
    { injection H as <-. apply (inv_op s _ i o (pc o (WRet E_BUFF_LIMIT))); trivial; try reflexivity; try discriminate; split; trivial; exact I. }
    destruct Fr as (F1 & F2 & F3). set (q := (s_seq s + 1) mod two32) in *. destruct (N.eqb_spec q 0).
    { injection H as <-. apply (inv_ops s); trivial. }
    injection H as <-. apply (inv_op s _ i o (pc o (WLoadW q))); trivial; try reflexivity; try discriminate.
    + split; trivial. cbn [pc o_pc o_msg]. unfold MemConcInv.fits. lia.
    + intros q' X. injection X as <-. split; trivial.
    + intros q' X. injection X as <-. right. exact F2.
  - (* WLoadW *)
    injection H as <-. apply (inv_op s _ i o (pc o (WLoadR sq (s_w s) (s_gw s)))); trivial; try reflexivity; try discriminate.
    + split; trivial. cbn [pc o_pc o_msg]. repeat split; trivial; try apply Q2. lia.
    + intros q X. injection X as <-. apply Q3. unfold holds. now rewrite Epc.
    + intros q X. injection X as <-. left. unfold holds. now rewrite Epc.
  - (* WLoadR *)
    destruct Q2 as (Q2 & Q4 & Q5). destruct (N.ltb_spec (available n p (s_r s) wl) (cost (o_msg o))) as [L|L].
    { injection H as <-. apply (inv_op s _ i o (pc o (WRet E_BUFF_LIMIT))); trivial; try reflexivity; try discriminate; split; trivial; exact I. }
    injection H as <-. apply (inv_op s _ i o (pc o (WCas sq wl gw (s_gr s)))); trivial; try reflexivity; try discriminate.
    + split; trivial. cbn [pc o_pc o_msg]. rewrite V2, Q4 in L. split; trivial. repeat (split; trivial; try lia).
    + intros q X. injection X as <-. apply Q3. unfold holds. now rewrite Epc.
    + intros q X. injection X as <-. left. unfold holds. now rewrite Epc.
  - (* WCas *)
    destruct Q2 as (Q2 & Q4 & Q5 & Q6 & Q7 & Q8).
    destruct (Q3 sq) as [R1 R2]; [unfold holds; now rewrite Epc|].
    destruct (N.eqb_spec (s_w s) wl) as [Ew|Ew]; [destruct weak|]; cbn [andb negb] in H.
    2: { injection H as <-. rewrite (Fr Ew eq_refl) in *. clear Fr Q5 Ew gw.
      set (B := {| b_pos := s_gw s; b_msg := o_msg o; b_seq := sq; b_done := []; b_fin := false; b_skip := false |}).
      pose proof Q2 as [_ Fc]. pose proof (cost_pos (o_msg o)) as Cp.
      assert (Rm : bend B + p + 1 <= s_gr s + n).
      { unfold bend; cbn [B b_pos b_msg].
        apply (avail_room gr); trivial; lia. }
      assert (Eg : s_gw s + cost (o_msg o) = bend B) by reflexivity.
      constructor; cbn [with_op with_w s_mem s_r s_w s_rd s_gr s_gw s_blks s_ops s_log]; trivial.
      - rewrite Eg. apply core_reserve with (gw := s_gw s); trivial.
      - rewrite Q4. apply nxt; lia.
      - eapply rd_mono; [eassumption|lia|]. now apply evolves_snoc.
      - eapply ops_reserve with (q := sq); [eassumption|eassumption|unfold holds; now rewrite Epc|reflexivity|lia| |reflexivity|reflexivity].
        split; trivial. cbn [pc o_pc o_msg]. exists B. split; [rewrite nth_error_app2, Nat.sub_diag by lia; reflexivity|].
        repeat (split; trivial). unfold MemConcInv.stores_of. cbn [B b_pos b_msg b_seq b_done app]. now rewrite Q4.
      - change (delivered s = cons_ (s_gr s) (s_blks s ++ [B])). rewrite cons_app, V6, <- (app_nil_r (cons_ (s_gr s) (s_blks s))) at 1. f_equal.
        symmetry. apply cons_empty. intros b B' Eb. destruct b as [|b]; [|destruct b; discriminate]. injection Eb as <-. unfold bend; cbn [B b_pos b_msg]. lia. }
    1,2: injection H as <-; apply (inv_op s _ i o (pc o (WLoadR sq (s_w s) (s_gw s)))); trivial; try reflexivity; try discriminate;
      [ split; trivial; cbn [pc o_pc o_msg]; split; trivial; split; [trivial|lia]
      | intros q X; injection X as <-; split; trivial
      | intros q X; injection X as <-; left; unfold holds; now rewrite Epc ].
  - (* WStore *)
    destruct Q2 as (B & Q2 & Q4 & Q5 & Q6 & Q7 & Q8). specialize (Fr B Q2).
    pose proof (c_blk _ _ _ _ _ _ _ _ V1 b B Q2) as [Ft _]. pose proof (fits_hyps n p hash (b_msg B) (b_pos B) (proj1 Hn) Ft) as (P1 & P2 & P3).
    assert (L : clr_of (s_rd s) (s_gr s) <= b_pos B).
    { destruct (N.le_gt_cases (clr_of (s_rd s) (s_gr s)) (b_pos B)) as [|L]; trivial. apply (c_early _ _ _ _ _ _ _ _ V1 b B Q2) in L; trivial. congruence. }
    assert (Gb : s_gr s < bend B) by (unfold bend; lia).
    destruct todo as [|[c v] todo].
    + rewrite app_nil_r in Q8.
      assert (Ef : s_mem s (CFlag w) = MF_START).
      { subst w. pose proof (c_mem _ _ _ _ _ _ _ _ V1 b B (b_pos B) Q2 ltac:(unfold bend; lia) ltac:(lia) (CFlag (b_pos B mod n)) eq_refl) as M.
        rewrite Q8 in M. unfold MemConcInv.stores_of in M. rewrite block_look_flag0 in M by trivial. now apply M. }
      rewrite Ef in H. injection H as <-. apply (inv_op s _ i o (pc o (WOr b w sq MF_START))); trivial; try reflexivity; try discriminate.
      * split; trivial. cbn [pc o_pc o_msg]. exists B. repeat (split; trivial).
      * intros b' X. injection X as <-. unfold block_of. now rewrite Epc.
    + assert (Hin : In (c, v) (stores_of B)) by (rewrite <- Q8; apply in_or_app; right; now left).
      pose proof Hin as Hin2. unfold MemConcInv.stores_of in Hin2. apply block_in in Hin2; trivial. destruct Hin2 as [(t & Ht & Hc) Hv].
      rewrite N.add_mod_idemp_l in Hc by lia.
      injection H as <-. unfold upd_blk. cbn [with_mem s_blks]. rewrite Q2. set (B' := done_more B (c, v)).
      assert (Sm : same B B') by (repeat split).
      assert (Ok' : blk_ok n p hash B').
      { split; trivial. cbn [B' done_more b_fin]. rewrite Q7. exists todo. cbn [B' done_more b_done]. rewrite <- app_assoc. exact Q8. }
      constructor; cbn [with_op with_blks with_mem with_w s_mem s_r s_w s_rd s_gr s_gw s_blks s_ops s_log]; trivial.
      * apply core_write with (B := B) (x0 := b_pos B + t); trivial; [unfold bend; lia|]. intros y ->. exact Hv.
      * eapply rd_mono; [eassumption|lia|]. apply evolves_set with B; trivial.
      * eapply ops_write with (B := B); [eassumption|eassumption|unfold block_of; now rewrite Epc|eassumption|trivial| |trivial| |reflexivity|].
        -- intros y. unfold cell_upd. destruct (cell_eqb (CSeq y) c) eqn:Ec; [|now left]. right. destruct c; try discriminate. exact Hv.
        -- split; trivial. cbn [pc o_pc o_msg]. exists B'. split; [rewrite (nth_error_set_nth _ _ _ _ _ Q2), Nat.eqb_refl; reflexivity|].
           repeat (split; trivial). cbn [B' done_more b_done]. rewrite <- app_assoc. exact Q8.
        -- intros b' X. now injection X as <-.
      * change (delivered s = cons_ (s_gr s) (set_nth b B' (s_blks s))). rewrite (cons_set _ _ _ B); trivial.
  - (* WOr *)
    destruct Q2 as (B & Q2 & Q4 & Q5 & Q6 & Q7 & Q8 & Q9). specialize (Fr B Q2).
    pose proof (c_blk _ _ _ _ _ _ _ _ V1 b B Q2) as [Ft _]. pose proof (fits_hyps n p hash (b_msg B) (b_pos B) (proj1 Hn) Ft) as (P1 & P2 & P3).
    assert (L : clr_of (s_rd s) (s_gr s) <= b_pos B).
    { destruct (N.le_gt_cases (clr_of (s_rd s) (s_gr s)) (b_pos B)) as [|L]; trivial. apply (c_early _ _ _ _ _ _ _ _ V1 b B Q2) in L; trivial. congruence. }
    assert (Gb : s_gr s < bend B) by (unfold bend; lia).
    subst f. change (N.lor MF_START MF_WRITEN) with 3 in H.
    injection H as <-. unfold upd_blk. cbn [with_mem s_blks]. rewrite Q2. set (B' := finish B (CFlag w, 3)).
    assert (Sm : same B B') by (repeat split).
    assert (Ok' : blk_ok n p hash B').
    { split; trivial. cbn [B' finish b_fin b_done b_pos]. unfold MemConcInv.stores_of in *. cbn [finish b_pos b_seq b_msg]. now rewrite Q8, Q4. }
    constructor; cbn [with_op with_blks with_mem with_w s_mem s_r s_w s_rd s_gr s_gw s_blks s_ops s_log]; trivial.
    + apply core_write with (B := B) (x0 := b_pos B); trivial; [unfold bend; lia|discriminate].
    + eapply rd_mono; [eassumption|lia|]. apply evolves_set with B; trivial.
    + eapply ops_write with (B := B); [eassumption|eassumption|unfold block_of; now rewrite Epc|eassumption|trivial| |trivial| |reflexivity|discriminate].
      * intros y. now left.
      * split; trivial; exact I.
    + change (delivered s = cons_ (s_gr s) (set_nth b B' (s_blks s))). rewrite (cons_set _ _ _ B); trivial.
  - (* WCheck *)
    destruct (s_mem s (CSeq w) =? sq).
    { injection H as <-. apply (inv_op s _ i o (pc o (WRet OK))); trivial; try reflexivity; try discriminate; split; trivial; exact I. }
    destruct (o_left o) as [|lf].
    { injection H as <-. apply (inv_op s _ i o (pc o (WRet E_BLOCK_CSEQ))); trivial; try reflexivity; try discriminate; split; trivial; exact I. }
    injection H as <-. apply (inv_op s _ i o {| o_msg := o_msg o; o_left := lf; o_pc := WFetch |}); trivial; try reflexivity; try discriminate; split; trivial; exact I.
  - discriminate.
Qed.
End P.
