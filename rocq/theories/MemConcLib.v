(** Lemmas for the concurrent memory channel: stores, ring positions, block chains. *)
From Verif Require Import Base MemSpec Mem MemProof MemConc.
Local Open Scope N_scope.
Local Ltac Zify.zify_post_hook ::= idtac.

(** * Lists *)
Lemma set_nth_eq {A} i (v : A) l x : nth_error l i = Some x -> nth_error (set_nth i v l) i = Some v.
Proof.
  unfold set_nth. revert l. induction i as [|i IH]; intros [|a l] H; try discriminate; cbn; trivial. now apply IH.
Qed.
Lemma set_nth_neq {A} i j (v : A) l : i <> j -> nth_error (set_nth i v l) j = nth_error l j.
Proof.
  unfold set_nth. revert j l. induction i as [|i IH]; intros j [|a l] H; cbn; trivial.
  - now destruct j.
  - destruct j; [reflexivity|]. cbn. apply IH. congruence.
Qed.
Lemma set_nth_length {A} i (v : A) l : length (set_nth i v l) = length l.
Proof.
  unfold set_nth. revert l. induction i as [|i IH]; intros [|a l]; cbn; trivial. now rewrite IH.
Qed.
Lemma nth_error_set_nth {A} i j (v : A) l x :
  nth_error l i = Some x -> nth_error (set_nth i v l) j = if Nat.eqb j i then Some v else nth_error l j.
Proof.
  intros H. destruct (Nat.eqb_spec j i); [subst; now apply set_nth_eq with x | apply set_nth_neq; congruence].
Qed.
Lemma nth_error_snoc {A} (l : list A) x j :
  nth_error (l ++ [x]) j = if Nat.eqb j (length l) then Some x else nth_error l j.
Proof.
  destruct (Nat.eqb_spec j (length l)).
  - subst. rewrite nth_error_app2, Nat.sub_diag by lia. reflexivity.
  - destruct (Nat.lt_ge_cases j (length l)).
    + now rewrite nth_error_app1.
    + rewrite nth_error_app2 by lia. rewrite (proj2 (nth_error_None l j)) by lia.
      apply nth_error_None. cbn. lia.
Qed.

(** * Cells *)
Lemma cell_eqb_spec x y : cell_eqb x y = true <-> x = y.
Proof. destruct x, y; cbn; rewrite ?N.eqb_eq; split; congruence. Qed.
Lemma cell_eqb_refl x : cell_eqb x x = true.
Proof. now apply cell_eqb_spec. Qed.
Lemma cell_eqb_neq x y : x <> y -> cell_eqb x y = false.
Proof. intros. destruct (cell_eqb x y) eqn:E; trivial. apply cell_eqb_spec in E. contradiction. Qed.
Lemma upd_eq m c v : cell_upd m c v c = v.
Proof. unfold cell_upd. now rewrite cell_eqb_refl. Qed.
Lemma upd_neq m c v x : x <> c -> cell_upd m c v x = m x.
Proof. intros. unfold cell_upd. now rewrite cell_eqb_neq. Qed.
Definition cnode (c : cell) : N := match c with CFlag i => i | CSeq i => i | CData a => a / 256 end.

(** Last value stored in a cell. *)
Fixpoint look (l : list (cell * N)) (c : cell) : option N :=
  match l with
  | [] => None
  | (c', v) :: r => match look r c with Some x => Some x | None => if cell_eqb c c' then Some v else None end
  end.
Lemma look_app a b c : look (a ++ b) c = match look b c with Some x => Some x | None => look a c end.
Proof.
  induction a as [|[c' v] a IH]; cbn [app look]; [now destruct (look b c)|]. rewrite IH. now destruct (look b c).
Qed.
Lemma look_snoc a c' v c : look (a ++ [(c', v)]) c = if cell_eqb c c' then Some v else look a c.
Proof. rewrite look_app. cbn. now destruct (cell_eqb c c'). Qed.
Lemma look_in l c v : look l c = Some v -> In (c, v) l.
Proof.
  induction l as [|[c' x] l IH]; cbn; [discriminate|]. destruct (look l c).
  - intros [= ->]. right. now apply IH.
  - destruct (cell_eqb c c') eqn:E; [|discriminate]. apply cell_eqb_spec in E. intros [= ->]. left. congruence.
Qed.
Lemma look_none l c : (forall v, ~ In (c, v) l) -> look l c = None.
Proof. intros H. destruct (look l c) eqn:E; trivial. apply look_in in E. now apply H in E. Qed.

Lemma stores_in f j bs c v : In (c, v) (stores_at f j bs) -> exists i, j <= i < j + blen bs /\ c = f i /\ v = nth (N.to_nat (i - j)) bs 0.
Proof.
  revert j. induction bs as [|b bs IH]; intros j H; [contradiction|]. cbn [stores_at In] in H. destruct H as [[= <- <-]|H].
  - exists j. unfold blen. cbn [length]. split; [lia|]. split; trivial. replace (N.to_nat (j - j)) with O by lia. reflexivity.
  - apply IH in H. destruct H as (i & H1 & H2 & H3). exists i. unfold blen in *. cbn [length]. split; [lia|]. split; trivial.
    replace (N.to_nat (i - j)) with (S (N.to_nat (i - (j + 1)))) by lia. exact H3.
Qed.
Lemma stores_look f bs : forall j,
  (forall x y, j <= x < j + blen bs -> j <= y < j + blen bs -> f x = f y -> x = y) ->
  forall i, j <= i < j + blen bs -> look (stores_at f j bs) (f i) = Some (nth (N.to_nat (i - j)) bs 0).
Proof.
  induction bs as [|b bs IH]; intros j Inj i Hi; [cbn in Hi; lia|].
  assert (L : blen (b :: bs) = 1 + blen bs) by (unfold blen; cbn [length]; lia). rewrite L in *.
  cbn [stores_at look]. destruct (N.eq_dec i j) as [->|Ne].
  - rewrite look_none.
    + rewrite cell_eqb_refl. replace (N.to_nat (j - j)) with O by lia. reflexivity.
    + intros v Hin. apply stores_in in Hin. destruct Hin as (x & X1 & X2 & _). apply Inj in X2; lia.
  - rewrite IH by (try lia; intros; apply Inj; trivial; lia).
    replace (N.to_nat (i - j)) with (S (N.to_nat (i - (j + 1)))) by lia. reflexivity.
Qed.

Lemma mark_in n seq : forall k fuel i c v,
  i < n -> k < n -> (N.to_nat k <= fuel)%nat ->
  In (c, v) (mark_stores fuel n i ((i + k) mod n) seq) ->
  exists j, j < k /\ ((c = CFlag ((i + j) mod n) /\ v = MF_WRITEN) \/ (c = CSeq ((i + j) mod n) /\ v = seq)).
Proof.
  intros k. induction k as [|k IH] using N.peano_ind; intros fuel i c v Hi Hk Hf.
  - rewrite N.add_0_r, N.mod_small by lia. destruct fuel; cbn; [contradiction|]. rewrite N.eqb_refl. contradiction.
  - destruct fuel as [|fuel]; [lia|]. cbn [mark_stores].
    assert (i =? (i + N.succ k) mod n = false) as -> by (apply N.eqb_neq; ring_norm; ltbs; lia).
    unfold next_index. cbn [In]. intros [H|[H|H]].
    + exists 0. split; [lia|]. rewrite N.add_0_r, N.mod_small by lia. left. split; congruence.
    + exists 0. split; [lia|]. rewrite N.add_0_r, N.mod_small by lia. right. split; congruence.
    + replace ((i + N.succ k) mod n) with (((i + 1) mod n + k) mod n) in H by (rewrite ring_assoc by lia; f_equal; lia).
      apply IH in H; [|apply ring_lt; lia|lia|lia]. destruct H as (j & Hj & H). exists (j + 1). split; [lia|].
      rewrite ring_assoc in H by lia. replace (1 + j) with (j + 1) in H by lia. exact H.
Qed.
Lemma mark_look n seq : forall k fuel i j,
  i < n -> k < n -> (N.to_nat k <= fuel)%nat -> j < k ->
  look (mark_stores fuel n i ((i + k) mod n) seq) (CFlag ((i + j) mod n)) = Some MF_WRITEN /\
  look (mark_stores fuel n i ((i + k) mod n) seq) (CSeq ((i + j) mod n)) = Some seq.
Proof.
  intros k. induction k as [|k IH] using N.peano_ind; intros fuel i j Hi Hk Hf Hj; [lia|].
  destruct fuel as [|fuel]; [lia|]. cbn [mark_stores].
  assert (i =? (i + N.succ k) mod n = false) as -> by (apply N.eqb_neq; ring_norm; ltbs; lia).
  unfold next_index. cbn [look].
  replace ((i + N.succ k) mod n) with (((i + 1) mod n + k) mod n) by (rewrite ring_assoc by lia; f_equal; lia).
  destruct (N.eq_dec j 0) as [->|Ne].
  - rewrite N.add_0_r, (N.mod_small i n) by lia. cbn [cell_eqb]. rewrite N.eqb_refl.
    assert (X : forall v, ~ In (CFlag i, v) (mark_stores fuel n ((i + 1) mod n) (((i + 1) mod n + k) mod n) seq) /\
                          ~ In (CSeq i, v) (mark_stores fuel n ((i + 1) mod n) (((i + 1) mod n + k) mod n) seq)).
    { intros v. split; intros H; apply mark_in in H; try lia; try (apply ring_lt; lia);
        destruct H as (t & Ht & H); rewrite ring_assoc, (N.add_comm 1 t) in H by lia;
        destruct H as [[[= H] _]|[[= H] _]]; revert H; ring_norm; ltbs; lia. }
    rewrite (look_none _ (CFlag i)) by (intros v; apply (X v)). rewrite (look_none _ (CSeq i)) by (intros v; apply (X v)).
    split; reflexivity.
  - destruct (IH fuel ((i + 1) mod n) (j - 1)) as [A B]; try lia; try (apply ring_lt; lia).
    rewrite (ring_assoc n i 1 (j - 1)) in A, B by lia. replace (1 + (j - 1)) with j in A, B by lia.
    now rewrite A, B.
Qed.

(** * Positions *)
Lemma mod_win n a x y : 0 < n -> a <= x < a + n -> a <= y < a + n -> x mod n = y mod n -> x = y.
Proof.
  intros Hn Hx Hy E. pose proof (N.div_mod' x n). pose proof (N.div_mod' y n). rewrite E in H.
  assert (x / n = y / n); [|congruence].
  destruct (N.lt_trichotomy (x / n) (y / n)) as [L|[L|L]]; trivial; exfalso.
  - assert (n * (x / n) + n <= n * (y / n)) by (replace (n * (x / n) + n) with (n * (x / n + 1)) by lia; apply N.mul_le_mono_l; lia). lia.
  - assert (n * (y / n) + n <= n * (x / n)) by (replace (n * (y / n) + n) with (n * (y / n + 1)) by lia; apply N.mul_le_mono_l; lia). lia.
Qed.
Lemma pos_mod n a t : 0 < n -> (a mod n + t) mod n = (a + t) mod n.
Proof. intros. apply N.add_mod_idemp_l. lia. Qed.
Lemma mod_plus n a : 0 < n -> (a + n) mod n = a mod n.
Proof. intros. replace (a + n) with (a + 1 * n) by lia. apply N.mod_add. lia. Qed.

(** * Chains of blocks *)
Definition bend (b : blk) : N := b_pos b + cost (b_msg b).
Fixpoint chain (a : N) (bs : list blk) (w : N) : Prop :=
  match bs with [] => a = w | b :: r => b_pos b = a /\ chain (bend b) r w end.
Lemma chain_le a bs w : chain a bs w -> a <= w.
Proof.
  revert a. induction bs as [|b bs IH]; intros a H; [cbn in H; lia|]. destruct H as [H1 H2]. apply IH in H2. unfold bend in H2. lia.
Qed.
Lemma chain_nth a bs w b B : chain a bs w -> nth_error bs b = Some B -> a <= b_pos B /\ bend B <= w.
Proof.
  revert a b. induction bs as [|x bs IH]; intros a b H E; [destruct b; discriminate|]. destruct H as [H1 H2]. destruct b as [|b].
  - injection E as ->. apply chain_le in H2. lia.
  - cbn in E. apply (IH _ _ H2) in E. unfold bend in *. lia.
Qed.
Lemma chain_order a bs w b b' B B' : chain a bs w -> nth_error bs b = Some B -> nth_error bs b' = Some B' -> (b < b')%nat -> bend B <= b_pos B'.
Proof.
  revert a b b'. induction bs as [|x bs IH]; intros a b b' H E E' L; [destruct b; discriminate|]. destruct H as [H1 H2].
  destruct b' as [|b']; [lia|]. cbn in E'. destruct b as [|b].
  - injection E as ->. apply (chain_nth _ _ _ _ _ H2) in E'. lia.
  - cbn in E. apply (IH _ _ _ H2 E E'). lia.
Qed.
Lemma chain_uniq a bs w b b' B B' x : chain a bs w -> nth_error bs b = Some B -> nth_error bs b' = Some B' ->
  b_pos B <= x < bend B -> b_pos B' <= x < bend B' -> b = b'.
Proof.
  intros H E E' X X'. destruct (Nat.lt_trichotomy b b') as [L|[L|L]]; trivial.
  - pose proof (chain_order _ _ _ _ _ _ _ H E E' L). lia.
  - pose proof (chain_order _ _ _ _ _ _ _ H E' E L). lia.
Qed.
Lemma chain_owner a bs w x : chain a bs w -> a <= x < w -> exists b B, nth_error bs b = Some B /\ b_pos B <= x < bend B.
Proof.
  revert a. induction bs as [|y bs IH]; intros a H X; [cbn in H; lia|]. destruct H as [H1 H2].
  destruct (N.lt_ge_cases x (bend y)).
  - exists O, y. split; trivial. lia.
  - destruct (IH _ H2 ltac:(lia)) as (b & B & E & XX). exists (S b), B. auto.
Qed.
Lemma chain_snoc a bs w b : chain a bs w -> b_pos b = w -> chain a (bs ++ [b]) (bend b).
Proof.
  revert a. induction bs as [|y bs IH]; intros a H E; cbn in *; [subst; auto|]. destruct H as [H1 H2]. auto.
Qed.
Definition same (b b' : blk) : Prop := b_pos b' = b_pos b /\ b_msg b' = b_msg b /\ b_seq b' = b_seq b.
Lemma same_bend b b' : same b b' -> bend b' = bend b.
Proof. intros (E1 & E2 & _). unfold bend. congruence. Qed.
Lemma chain_set a bs w i b b' : chain a bs w -> nth_error bs i = Some b -> same b b' -> chain a (set_nth i b' bs) w.
Proof.
  revert a i. induction bs as [|y bs IH]; intros a i H E S; [destruct i; discriminate|]. destruct H as [H1 H2]. destruct i as [|i].
  - injection E as ->. cbn. pose proof (same_bend _ _ S) as Eb. destruct S as (S1 & S2 & _). split; [congruence|]. now rewrite Eb.
  - cbn in E. cbn. split; trivial. now apply IH.
Qed.
Lemma chain_map a bs w (f : blk -> blk) : chain a bs w -> (forall b, same b (f b)) -> chain a (map f bs) w.
Proof.
  revert a. induction bs as [|y bs IH]; intros a H S; trivial. destruct H as [H1 H2]. cbn. split.
  - destruct (S y) as (-> & _). exact H1.
  - rewrite (same_bend _ _ (S y)). now apply IH.
Qed.
