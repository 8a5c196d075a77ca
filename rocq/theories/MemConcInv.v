(** Invariant of the shared memory: who owns which node, what each cell holds. *)
From Verif Require Import Base MemSpec Mem MemProof MemConc MemConcLib MemConcStores.
Local Open Scope N_scope.
Local Ltac Zify.zify_post_hook ::= idtac.

Section I.
Variables (n p : N) (hash : bytes -> N).

Definition stores_of (B : blk) : list (cell * N) := block_stores n hash (b_pos B mod n) (cost (b_msg B)) (b_seq B) (b_msg B).
Definition fits (m : bytes) : Prop := 1 <= blen m < 2 ^ 63 /\ cost m + p < n.
(** A block has executed a prefix of its stores; a finished one all of them, then the
    completion flag. *)
Definition blk_ok (B : blk) : Prop :=
  fits (b_msg B) /\
  if b_fin B then b_done B = stores_of B ++ [(CFlag (b_pos B mod n), 3)] else exists todo, b_done B ++ todo = stores_of B.

(** Expected content of the cells of one node of a block. *)
Definition cell_ok (mem : cell -> N) (clr : N) (B : blk) (x : N) : Prop :=
  forall c, cnode c = x mod n ->
    match look (b_done B) c with
    | Some v => match c with CFlag _ => clr <= x -> mem c = v | _ => mem c = v end
    | None => match c with CFlag _ => mem c = 0 | _ => True end
    end.

(** [gr], [gw]: absolute read and write positions; [clr]: position up to which the
    reader has cleared flags. *)
Record core (mem : cell -> N) (gr gw clr : N) (bs : list blk) : Prop := {
  c_n : 1 <= n < 2 ^ 40;
  c_room : gr <= gw /\ gw + p + 1 <= gr + n;
  c_clr : gr <= clr <= gw;
  c_chain : chain 0 bs gw;
  c_blk : forall b B, nth_error bs b = Some B -> blk_ok B;
  c_mem : forall b B x, nth_error bs b = Some B -> b_pos B <= x < bend B -> gr <= x -> cell_ok mem clr B x;
  c_clear : forall x, gr <= x < clr -> mem (CFlag (x mod n)) = 0;
  c_free : forall x, gw <= x < gr + n -> mem (CFlag (x mod n)) = 0;
  c_skip : forall b B, nth_error bs b = Some B -> b_skip B = true -> b_fin B = false;
  c_early : forall b B, nth_error bs b = Some B -> b_pos B < clr -> b_fin B = false -> b_skip B = true;
  c_seqs : forall b b' B B', nth_error bs b = Some B -> nth_error bs b' = Some B' -> gr < bend B -> gr < bend B' ->
           b_seq B = b_seq B' -> b = b';
  c_own : forall b B y, nth_error bs b = Some B -> gr < bend B -> y < n -> mem (CSeq y) = b_seq B ->
          exists x, b_pos B <= x < bend B /\ y = x mod n
}.

Lemma fits_hyps m a : 1 <= n -> fits m -> a mod n < n /\ 1 <= cost m < n /\ blen m + 16 <= 256 * cost m.
Proof.
  intros Hn [F1 F2]. pose proof (cost_bounds m). pose proof (cost_pos m). pose proof (N.mod_lt a n). lia.
Qed.

Lemma core_init : 1 <= n < 2 ^ 40 -> p + 1 <= n -> core (fun _ => 0) 0 0 0 [].
Proof.
  intros Hn Hp. constructor; trivial; try lia; try reflexivity; try (intros b; destruct b; discriminate).
Qed.

(** ** A store by the owner of a block *)
Lemma core_write mem gr gw clr bs b B B' c v x0 :
  core mem gr gw clr bs -> nth_error bs b = Some B -> b_fin B = false -> b_skip B = false ->
  same B B' -> b_skip B' = false -> b_done B' = b_done B ++ [(c, v)] -> blk_ok B' ->
  b_pos B <= x0 < bend B -> cnode c = x0 mod n -> (forall y, c = CSeq y -> v = b_seq B) ->
  core (cell_upd mem c v) gr gw clr (set_nth b B' bs).
Proof.
  intros C E Fin Sk Sm Sk' Dn Ok X0 Nd Sq. pose proof C as [H1 H2 H3 H4 H5 H6 H7 H8 H9 H10 H11 H12].
  pose proof (chain_nth _ _ _ _ _ H4 E) as [_ Le].
  assert (Ps : clr <= b_pos B).
  { destruct (N.lt_ge_cases (b_pos B) clr) as [L|]; trivial. rewrite (H10 _ _ E L Fin) in Sk. discriminate. }
  pose proof (same_bend _ _ Sm) as Eb. pose proof Sm as (S1 & S2 & S3).
  assert (N0 : forall x, gr <= x < gr + n -> x <> x0 -> x mod n <> cnode c).
  { intros x Hx Ne. rewrite Nd. intros Em. apply Ne. apply (mod_win n gr); trivial; lia. }
  assert (K : forall i D, nth_error (set_nth b B' bs) i = Some D -> (i = b /\ D = B') \/ (i <> b /\ nth_error bs i = Some D)).
  { intros i D Ei. rewrite (nth_error_set_nth _ _ _ _ _ E) in Ei. destruct (Nat.eqb_spec i b); [left; split; congruence|right; auto]. }
  constructor; trivial.
  - now apply (chain_set _ _ _ _ B).
  - intros i D Ei. destruct (K _ _ Ei) as [[-> ->]|[Ni Ei']]; trivial. now apply (H5 i).
  - intros i D x Ei Hx Hg. destruct (K _ _ Ei) as [[-> ->]|[Ni Ei']].
    + rewrite Eb, S1 in Hx. intros c' Hc'. rewrite Dn, look_snoc. pose proof (H6 b B x E Hx Hg c' Hc') as M.
      destruct (cell_eqb c' c) eqn:Ec.
      * apply cell_eqb_spec in Ec. subst c'. rewrite upd_eq. now destruct c.
      * assert (c' <> c) by (intros ->; now rewrite cell_eqb_refl in Ec). rewrite upd_neq by assumption. exact M.
    + intros c' Hc'. pose proof (H6 i D x Ei' Hx Hg c' Hc') as M.
      rewrite upd_neq; [exact M|]. intros ->. pose proof (chain_nth _ _ _ _ _ H4 Ei') as [_ LeD].
      destruct (N.eq_dec x x0) as [->|Nx].
      * apply Ni. now apply (chain_uniq _ _ _ _ _ _ _ x0 H4 Ei' E).
      * apply (N0 x); [lia|assumption|congruence].
  - intros x Hx. rewrite upd_neq; [now apply H7|]. intros <-. cbn in Nd. apply (N0 x); [lia|lia|reflexivity].
  - intros x Hx. rewrite upd_neq; [now apply H8|]. intros <-. cbn in Nd. apply (N0 x); [lia|lia|reflexivity].
  - intros i D Ei Hs. destruct (K _ _ Ei) as [[-> ->]|[Ni Ei']]; [congruence|]. now apply (H9 i).
  - intros i D Ei Hp Hf. destruct (K _ _ Ei) as [[-> ->]|[Ni Ei']]; [rewrite S1 in Hp; lia|]. now apply (H10 i).
  - intros i i' D D' Ei Ei' G G' Es.
    destruct (K _ _ Ei) as [[-> ->]|[Ni Ei2]], (K _ _ Ei') as [[-> ->]|[Ni' Ei2']]; trivial.
    + rewrite Eb in G. rewrite S3 in Es. now apply (H11 b i' B D').
    + rewrite Eb in G'. rewrite S3 in Es. now apply (H11 i b D B).
    + now apply (H11 i i' D D').
  - intros i D y Ei G Hy Em.
    destruct (cell_eqb (CSeq y) c) eqn:Ec.
    + apply cell_eqb_spec in Ec. subst c. rewrite upd_eq in Em. specialize (Sq y eq_refl). cbn in Nd.
      destruct (K _ _ Ei) as [[-> ->]|[Ni Ei2]].
      * exists x0. rewrite Eb, S1. auto.
      * exfalso. apply Ni. apply (H11 i b D B); trivial; [lia|congruence].
    + assert (Nc : CSeq y <> c) by (intros <-; now rewrite cell_eqb_refl in Ec). rewrite upd_neq in Em by assumption.
      destruct (K _ _ Ei) as [[-> ->]|[Ni Ei2]].
      * rewrite S3 in Em. rewrite Eb in *. rewrite S1. now apply (H12 b B).
      * now apply (H12 i D).
Qed.

(** ** The reader clears the flag at its position *)
Lemma core_clear mem gr gw clr bs :
  core mem gr gw clr bs -> clr < gw ->
  (forall b B, nth_error bs b = Some B -> b_pos B = clr -> b_fin B = false -> b_skip B = true) ->
  core (cell_upd mem (CFlag (clr mod n)) 0) gr gw (clr + 1) bs.
Proof.
  intros C L Own. pose proof C as [H1 H2 H3 H4 H5 H6 H7 H8 H9 H10 H11 H12].
  assert (N0 : forall x, gr <= x < gr + n -> x <> clr -> x mod n <> clr mod n).
  { intros x Hx Ne Em. apply Ne. apply (mod_win n gr); trivial; lia. }
  constructor; trivial; try lia.
  - intros b B x E Hx Hg c Hc. pose proof (H6 b B x E Hx Hg c Hc) as M.
    destruct (cell_eqb c (CFlag (clr mod n))) eqn:Ec.
    + apply cell_eqb_spec in Ec. subst c. rewrite upd_eq. destruct (look _ _); trivial. intros Lx.
      exfalso. pose proof (chain_nth _ _ _ _ _ H4 E) as [_ Le]. cbn in Hc. apply (N0 x); [lia|lia|congruence].
    + rewrite upd_neq by (intros ->; now rewrite cell_eqb_refl in Ec). destruct (look _ _); trivial. destruct c; trivial.
      intros Lx. apply M. lia.
  - intros x Hx. destruct (N.eq_dec x clr) as [->|Ne]; [now rewrite upd_eq|].
    rewrite upd_neq; [apply H7; lia|]. intros [= E]. apply (N0 x); trivial; lia.
  - intros x Hx. rewrite upd_neq; [now apply H8|]. intros [= E]. apply (N0 x); trivial; lia.
  - intros b B E Hp Hf. destruct (N.eq_dec (b_pos B) clr); [now apply (Own b B)|]. apply (H10 b B); trivial. lia.
Qed.

(** ** Marking a block as passed over *)
Lemma same_skip x b : same b (if (b_pos b <=? x) && (x <? b_pos b + cost (b_msg b)) then mark_skip b else b).
Proof. destruct (_ && _); repeat split. Qed.
Lemma skip_nth x bs b B' : nth_error (skip_at x bs) b = Some B' ->
  exists B, nth_error bs b = Some B /\ same B B' /\ b_done B' = b_done B /\ b_fin B' = b_fin B /\
    (b_skip B' = true <-> b_skip B = true \/ (b_pos B <= x < bend B)).
Proof.
  unfold skip_at. rewrite nth_error_map. destruct (nth_error bs b) as [B|]; [|discriminate]. cbn. intros [= <-].
  exists B. split; trivial. split; [apply same_skip|]. unfold bend.
  destruct (N.leb_spec (b_pos B) x), (N.ltb_spec x (b_pos B + cost (b_msg B))); cbn; repeat split; auto; try tauto; try lia;
  intros [?|?]; auto; lia.
Qed.
Lemma skip_nth_r x bs b B : nth_error bs b = Some B -> exists B', nth_error (skip_at x bs) b = Some B'.
Proof. intros E. unfold skip_at. rewrite nth_error_map, E. cbn. eauto. Qed.
Lemma core_mark mem gr gw clr bs x :
  core mem gr gw clr bs -> (forall b B, nth_error bs b = Some B -> b_pos B <= x < bend B -> b_fin B = false) ->
  core mem gr gw clr (skip_at x bs).
Proof.
  intros C Uf. pose proof C as [H1 H2 H3 H4 H5 H6 H7 H8 H9 H10 H11 H12]. constructor; trivial.
  - apply chain_map; trivial. apply same_skip.
  - intros b B' E'. apply skip_nth in E'. destruct E' as (B & E & Sm & D & F & S). specialize (H5 b B E).
    unfold blk_ok, stores_of in *. destruct Sm as (-> & -> & ->). rewrite D, F. exact H5.
  - intros b B' y E'. apply skip_nth in E'. destruct E' as (B & E & Sm & D & F & S). rewrite (same_bend _ _ Sm).
    destruct Sm as (-> & _). unfold cell_ok. rewrite D. exact (H6 b B y E).
  - intros b B' E' Hs. apply skip_nth in E'. destruct E' as (B & E & Sm & D & F & S). rewrite F.
    apply S in Hs. destruct Hs; [now apply (H9 b)|now apply (Uf b)].
  - intros b B' E' Hp Hf. apply skip_nth in E'. destruct E' as (B & E & Sm & D & F & S). apply S. left.
    destruct Sm as (Sp & _). rewrite Sp in Hp. rewrite F in Hf. now apply (H10 b B).
  - intros b b' B1 B2 E1 E2. apply skip_nth in E1. apply skip_nth in E2.
    destruct E1 as (B & E & Sm & _). destruct E2 as (B3 & E3 & Sm3 & _). rewrite (same_bend _ _ Sm), (same_bend _ _ Sm3).
    destruct Sm as (_ & _ & ->). destruct Sm3 as (_ & _ & ->). now apply (H11 b b' B B3).
  - intros b B' y E'. apply skip_nth in E'. destruct E' as (B & E & Sm & _). rewrite (same_bend _ _ Sm).
    destruct Sm as (-> & _ & ->). now apply (H12 b B y).
Qed.

(** ** A reservation *)
Lemma core_reserve mem gr gw clr bs B :
  core mem gr gw clr bs -> b_pos B = gw -> b_done B = [] -> b_fin B = false -> b_skip B = false -> fits (b_msg B) ->
  bend B + p + 1 <= gr + n ->
  (forall y, y < n -> mem (CSeq y) <> b_seq B) ->
  (forall b B', nth_error bs b = Some B' -> gr < bend B' -> b_seq B' <> b_seq B) ->
  core mem gr (bend B) clr (bs ++ [B]).
Proof.
  intros C Ps Dn Fi Sk Ft Rm Fr Fr2. pose proof C as [H1 H2 H3 H4 H5 H6 H7 H8 H9 H10 H11 H12].
  pose proof (cost_pos (b_msg B)) as Cp. assert (Eb : bend B = gw + cost (b_msg B)) by (unfold bend; now rewrite Ps).
  assert (K : forall i D, nth_error (bs ++ [B]) i = Some D -> D = B /\ i = length bs \/ i <> length bs /\ nth_error bs i = Some D).
  { intros i D. rewrite nth_error_snoc. destruct (Nat.eqb_spec i (length bs)); [intros [= <-]; auto|auto]. }
  constructor; trivial; try lia.
  - now apply (chain_snoc _ _ gw).
  - intros i D Ei. destruct (K _ _ Ei) as [[-> ->]|[_ Ei']]; [|now apply (H5 i)].
    split; trivial. rewrite Fi, Dn. exists (stores_of B). reflexivity.
  - intros i D x Ei Hx Hg. destruct (K _ _ Ei) as [[-> ->]|[_ Ei']]; [|now apply (H6 i)].
    intros c Hc. rewrite Dn. cbn. destruct c; trivial. cbn in Hc. subst. apply H8. lia.
  - intros x Hx. apply H8. lia.
  - intros i D Ei Hs. destruct (K _ _ Ei) as [[-> ->]|[_ Ei']]; [congruence|]. now apply (H9 i).
  - intros i D Ei Hp Hf. destruct (K _ _ Ei) as [[-> ->]|[_ Ei']]; [lia|]. now apply (H10 i).
  - intros i i' D D' Ei Ei' G G' Es. destruct (K _ _ Ei) as [[-> ->]|[Ni Ei2]], (K _ _ Ei') as [[-> ->]|[Ni' Ei2']]; trivial.
    + exfalso. apply (Fr2 i' D'); trivial. congruence.
    + exfalso. apply (Fr2 i D); trivial.
    + now apply (H11 i i' D D').
  - intros i D y Ei G Hy Em. destruct (K _ _ Ei) as [[-> ->]|[Ni Ei2]]; [exfalso; now apply (Fr y)|]. now apply (H12 i D).
Qed.

(** ** The reader releases everything it has cleared *)
Lemma core_release mem gr gw clr bs : core mem gr gw clr bs -> core mem clr gw clr bs.
Proof.
  intros C. pose proof C as [H1 H2 H3 H4 H5 H6 H7 H8 H9 H10 H11 H12]. constructor; trivial; try lia.
  - intros b B x E Hx Hg. apply (H6 b); trivial. lia.
  - intros x Hx. destruct (N.lt_ge_cases x (gr + n)); [apply H8; lia|].
    rewrite <- (H7 (x - n)) by lia. do 2 f_equal. replace x with (x - n + n) at 1 by lia. apply mod_plus. lia.
  - intros b b' B B' E E' G G'. apply (H11 b b'); trivial; lia.
  - intros b B y E G. apply (H12 b); trivial. lia.
Qed.

(** ** Contents of a finished block *)
Lemma fin_flag mem gr gw clr bs b B x :
  core mem gr gw clr bs -> nth_error bs b = Some B -> b_fin B = true -> gr <= x -> clr <= x -> b_pos B <= x < bend B ->
  mem (CFlag (x mod n)) = if x =? b_pos B then 3 else 1.
Proof.
  intros C E F G L X. pose proof (c_blk _ _ _ _ _ C b B E) as [Ft Ok]. rewrite F in Ok.
  pose proof (fits_hyps (b_msg B) (b_pos B) (proj1 (c_n _ _ _ _ _ C)) Ft) as (P1 & P2 & P3).
  pose proof (c_mem _ _ _ _ _ C b B x E X G (CFlag (x mod n)) eq_refl) as M. rewrite Ok, look_snoc in M.
  unfold bend in X. pose proof (c_n _ _ _ _ _ C) as Hn.
  destruct (N.eqb_spec x (b_pos B)) as [->|Ne].
  - rewrite cell_eqb_refl in M. auto.
  - rewrite cell_eqb_neq in M.
    2:{ intros [= Em]. apply Ne. apply (mod_win n (b_pos B)); trivial; lia. }
    pose proof (block_look_flag n hash (b_pos B mod n) (cost (b_msg B)) (b_seq B) (b_msg B) P1 P2 P3 (x - b_pos B) ltac:(lia)) as Lk.
    rewrite pos_mod in Lk by lia. replace (b_pos B + (x - b_pos B)) with x in Lk by lia.
    unfold stores_of in M. rewrite Lk in M. auto.
Qed.
Lemma fin_look B c : b_fin B = true -> blk_ok B -> (forall i, c <> CFlag i) -> look (b_done B) c = look (stores_of B) c.
Proof.
  intros F [Ft Ok] Nf. rewrite F in Ok. rewrite Ok, look_snoc. rewrite cell_eqb_neq; trivial.
Qed.
Lemma fin_seq mem gr gw clr bs b B x :
  core mem gr gw clr bs -> nth_error bs b = Some B -> b_fin B = true -> gr <= x -> b_pos B <= x < bend B ->
  mem (CSeq (x mod n)) = b_seq B.
Proof.
  intros C E F G X. pose proof (c_blk _ _ _ _ _ C b B E) as Ok. pose proof Ok as [Ft _].
  pose proof (fits_hyps (b_msg B) (b_pos B) (proj1 (c_n _ _ _ _ _ C)) Ft) as (P1 & P2 & P3).
  pose proof (c_mem _ _ _ _ _ C b B x E X G (CSeq (x mod n)) eq_refl) as M.
  rewrite (fin_look B (CSeq (x mod n)) F Ok ltac:(intros ?; discriminate)) in M. unfold bend in X.
  pose proof (block_look_seq n hash (b_pos B mod n) (cost (b_msg B)) (b_seq B) (b_msg B) P1 P2 P3 (x - b_pos B) ltac:(lia)) as Lk.
  pose proof (c_n _ _ _ _ _ C) as Hn. rewrite pos_mod in Lk by lia. replace (b_pos B + (x - b_pos B)) with x in Lk by lia.
  unfold stores_of in M. rewrite Lk in M. exact M.
Qed.
Lemma fin_data mem gr gw clr bs b B a v :
  core mem gr gw clr bs -> nth_error bs b = Some B -> b_fin B = true -> gr <= b_pos B ->
  look (stores_of B) (CData a) = Some v -> mem (CData a) = v.
Proof.
  intros C E F G L. pose proof (c_blk _ _ _ _ _ C b B E) as Ok. pose proof Ok as [Ft _].
  pose proof (fits_hyps (b_msg B) (b_pos B) (proj1 (c_n _ _ _ _ _ C)) Ft) as (P1 & P2 & P3).
  pose proof (look_in _ _ _ L) as Hin. unfold stores_of in Hin. apply block_in in Hin; trivial. destruct Hin as [(t & Ht & Hn) _].
  pose proof (c_n _ _ _ _ _ C) as Hn1. rewrite pos_mod in Hn by lia.
  pose proof (c_mem _ _ _ _ _ C b B (b_pos B + t) E ltac:(unfold bend; lia) ltac:(lia) (CData a) Hn) as M.
  rewrite (fin_look B (CData a) F Ok ltac:(intros ?; discriminate)), L in M. exact M.
Qed.
Lemma fin_size mem gr gw clr bs b B j :
  core mem gr gw clr bs -> nth_error bs b = Some B -> b_fin B = true -> gr <= b_pos B -> j < 8 ->
  mem (CData (256 * (b_pos B mod n) + j)) = nth (N.to_nat j) (word_bytes 8 (blen (b_msg B))) 0.
Proof.
  intros C E F G J. pose proof (c_blk _ _ _ _ _ C b B E) as [Ft _].
  pose proof (fits_hyps (b_msg B) (b_pos B) (proj1 (c_n _ _ _ _ _ C)) Ft) as (P1 & P2 & P3).
  apply (fin_data mem gr gw clr bs b B); trivial. now apply block_look_size.
Qed.
Lemma fin_check mem gr gw clr bs b B j :
  core mem gr gw clr bs -> nth_error bs b = Some B -> b_fin B = true -> gr <= b_pos B -> j < 8 ->
  mem (CData (256 * (b_pos B mod n) + 8 + j)) = nth (N.to_nat j) (word_bytes 8 (fast_check hash (b_msg B))) 0.
Proof.
  intros C E F G J. pose proof (c_blk _ _ _ _ _ C b B E) as [Ft _].
  pose proof (fits_hyps (b_msg B) (b_pos B) (proj1 (c_n _ _ _ _ _ C)) Ft) as (P1 & P2 & P3).
  apply (fin_data mem gr gw clr bs b B); trivial. unfold stores_of. now apply block_look_check.
Qed.
Lemma fin_payload mem gr gw clr bs b B j :
  core mem gr gw clr bs -> nth_error bs b = Some B -> b_fin B = true -> gr <= b_pos B -> j < blen (b_msg B) ->
  mem (CData (payload_addr n (b_pos B mod n) j)) = nth (N.to_nat j) (b_msg B) 0.
Proof.
  intros C E F G J. pose proof (c_blk _ _ _ _ _ C b B E) as [Ft _].
  pose proof (fits_hyps (b_msg B) (b_pos B) (proj1 (c_n _ _ _ _ _ C)) Ft) as (P1 & P2 & P3).
  apply (fin_data mem gr gw clr bs b B); trivial. apply block_look_payload with (k := cost (b_msg B)); trivial.
Qed.
(** Flags of nodes after the first never carry the start mark; an unfinished first
    node never carries the completion mark. *)
Lemma mid_flag mem gr gw clr bs b B x :
  core mem gr gw clr bs -> nth_error bs b = Some B -> gr <= x -> clr <= x -> b_pos B < x < bend B ->
  N.testbit (mem (CFlag (x mod n))) 1 = false.
Proof.
  intros C E G L X. pose proof (c_blk _ _ _ _ _ C b B E) as [Ft Ok].
  pose proof (fits_hyps (b_msg B) (b_pos B) (proj1 (c_n _ _ _ _ _ C)) Ft) as (P1 & P2 & P3).
  pose proof (c_mem _ _ _ _ _ C b B x E ltac:(lia) G (CFlag (x mod n)) eq_refl) as M. pose proof (c_n _ _ _ _ _ C) as Hn.
  destruct (look (b_done B) (CFlag (x mod n))) as [v|] eqn:Lk; [|now rewrite M].
  rewrite (M L). clear M. apply look_in in Lk. unfold bend in X.
  assert (W : x mod n <> b_pos B mod n).
  { intros Em. assert (x = b_pos B) by (apply (mod_win n (b_pos B)); trivial; lia). lia. }
  assert (I : v = MF_WRITEN \/ (CFlag (x mod n), v) = (CFlag (b_pos B mod n), 3)).
  { assert (Hin : In (CFlag (x mod n), v) (stores_of B) -> v = MF_WRITEN).
    { intros Hin. apply block_in in Hin; trivial. destruct Hin as [_ [[A _]|[A _]]]; [contradiction|assumption]. }
    destruct (b_fin B).
    - rewrite Ok in Lk. apply in_app_or in Lk. destruct Lk as [Lk|[Lk|[]]]; auto.
    - destruct Ok as (todo & Ok). left. apply Hin. rewrite <- Ok. apply in_or_app. now left. }
  destruct I as [->|[= Em _]]; [reflexivity|contradiction].
Qed.
Lemma first_flag mem gr gw clr bs b B :
  core mem gr gw clr bs -> nth_error bs b = Some B -> gr <= b_pos B -> clr <= b_pos B ->
  N.testbit (mem (CFlag (b_pos B mod n))) 0 = true -> b_fin B = true.
Proof.
  intros C E G L T. destruct (b_fin B) eqn:F; trivial. exfalso.
  pose proof (c_blk _ _ _ _ _ C b B E) as [Ft Ok]. rewrite F in Ok. destruct Ok as (todo & Ok).
  pose proof (fits_hyps (b_msg B) (b_pos B) (proj1 (c_n _ _ _ _ _ C)) Ft) as (P1 & P2 & P3). pose proof (c_n _ _ _ _ _ C) as Hn.
  pose proof (cost_pos (b_msg B)).
  pose proof (c_mem _ _ _ _ _ C b B (b_pos B) E ltac:(unfold bend; lia) G (CFlag (b_pos B mod n)) eq_refl) as M.
  destruct (look (b_done B) (CFlag (b_pos B mod n))) as [v|] eqn:Lk; [|rewrite M in T; discriminate].
  rewrite (M L) in T. apply look_in in Lk.
  assert (Hin : In (CFlag (b_pos B mod n), v) (stores_of B)) by (rewrite <- Ok; apply in_or_app; now left).
  apply block_in in Hin; trivial. destruct Hin as [_ [[_ A]|[_ (t & Ht & A)]]].
  - subst v. discriminate.
  - rewrite pos_mod in A by lia. assert (b_pos B = b_pos B + t); [|lia]. apply (mod_win n (b_pos B)); trivial; lia.
Qed.
End I.
