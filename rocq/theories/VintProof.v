From Verif Require Import Base Vint VintSpec.
Local Open Scope N_scope.

Lemma land_7f n : N.land 0x7F n = n mod 128.
Proof. rewrite N.land_comm. change 0x7F with (N.ones 7). now rewrite N.land_ones. Qed.

Lemma land_7f' n : N.land n 0x7F = n mod 128.
Proof. rewrite N.land_comm. apply land_7f. Qed.

Lemma shiftr7 n : N.shiftr n 7 = n / 128.
Proof. now rewrite N.shiftr_div_pow2. Qed.

Lemma lor_disjoint_add a b k : b < 2 ^ k -> N.lor (a * 2 ^ k) b = a * 2 ^ k + b.
Proof.
  intros Hb. symmetry.
  rewrite N.add_nocarry_lxor; [rewrite N.lxor_lor; [reflexivity|]|].
  - apply N.bits_inj_iff; intros i; rewrite N.land_spec, N.bits_0.
    destruct (N.ltb_spec i k) as [H|H].
    + now rewrite N.mul_pow2_bits_low.
    + assert (N.testbit b i = false) as ->; [|apply andb_false_r].
      destruct (N.eq_dec b 0) as [->|Hz]; [apply N.bits_0|].
      apply N.bits_above_log2. apply N.log2_lt_pow2 in Hb; lia.
  - apply N.bits_inj_iff; intros i; rewrite N.land_spec, N.bits_0.
    destruct (N.ltb_spec i k) as [H|H].
    + now rewrite N.mul_pow2_bits_low.
    + assert (N.testbit b i = false) as ->; [|apply andb_false_r].
      destruct (N.eq_dec b 0) as [->|Hz]; [apply N.bits_0|].
      apply N.bits_above_log2. apply N.log2_lt_pow2 in Hb; lia.
Qed.

Lemma lor_80 d : d < 128 -> N.lor 0x80 d = d + 128.
Proof. intros H. change 0x80 with (1 * 2 ^ 7). rewrite lor_disjoint_add; [lia|exact H]. Qed.

Lemma land_80_cont d : d < 128 -> N.land 0x80 (d + 128) =? 0 = false.
Proof.
  intros H. apply N.eqb_neq. intros E.
  assert (N.testbit (N.land 0x80 (d + 128)) 7 = false) as E2 by (rewrite E; apply N.bits_0).
  rewrite N.land_spec in E2. change (N.testbit 0x80 7) with true in E2. simpl andb in E2.
  rewrite N.testbit_odd, N.shiftr_div_pow2 in E2. change (2 ^ 7) with 128 in E2.
  replace ((d + 128) / 128) with 1 in E2 by lia. discriminate.
Qed.

Lemma land_80_last d : d < 128 -> N.land 0x80 d =? 0 = true.
Proof.
  intros H. apply N.eqb_eq. apply N.bits_inj_iff; intros i. rewrite N.land_spec, N.bits_0.
  destruct (N.eq_dec i 7) as [->|Hi].
  - rewrite andb_comm, N.testbit_odd, N.shiftr_div_pow2. change (2 ^ 7) with 128.
    now replace (d / 128) with 0 by lia.
  - change 0x80 with (2 ^ 7). rewrite N.pow2_bits_eqb. now destruct (N.eqb_spec 7 i); [lia|].
Qed.

Lemma digits_snoc ds d : digits_value (ds ++ [d]) = digits_value ds * 128 + d.
Proof. unfold digits_value. now rewrite fold_left_app. Qed.

Lemma digits_cons_acc ds : forall acc,
  fold_left (fun acc d => acc * 128 + d) ds acc = acc * 128 ^ N.of_nat (length ds) + digits_value ds.
Proof.
  unfold digits_value. induction ds as [|d ds IH] using rev_ind; intros acc.
  - cbn. lia.
  - rewrite !fold_left_app, app_length. cbn [fold_left length].
    rewrite (IH acc). replace (N.of_nat (length ds + 1)) with (N.succ (N.of_nat (length ds))) by lia.
    rewrite N.pow_succ_r'. ring.
Qed.

Lemma digits_bound ds : Forall (fun d => d < 128) ds -> digits_value ds < 128 ^ N.of_nat (length ds).
Proof.
  induction ds as [|d ds IH] using rev_ind; intros H.
  - cbn. lia.
  - rewrite Forall_app in H. destruct H as [H1 H2]. inversion_clear H2 as [|? ? H3 _].
    rewrite digits_snoc, app_length. cbn [length].
    replace (N.of_nat (length ds + 1)) with (N.succ (N.of_nat (length ds))) by lia.
    rewrite N.pow_succ_r'. specialize (IH H1). nia.
Qed.

(** Reading: continuation digits accumulate. *)
Lemma read_loop_digits hi : forall acc used lo rest,
  Forall (fun d => d < 128) hi -> lo < 128 ->
  fold_left (fun a d => a * 128 + d) (hi ++ [lo]) acc < two64 ->
  read_loop acc used (map (fun d => d + 128) hi ++ lo :: rest)
  = (fold_left (fun a d => a * 128 + d) (hi ++ [lo]) acc, (used + length hi + 1)%nat).
Proof.
  induction hi as [|d hi IH]; intros acc used lo rest Hhi Hlo Hb.
  - cbn [map app fold_left read_loop length] in *.
    rewrite land_80_last, land_7f, N.mod_small by exact Hlo.
    rewrite N.shiftl_mul_pow2. change (2 ^ 7) with 128 in *.
    rewrite wrap64_small by lia. change 128 with (2 ^ 7).
    rewrite lor_disjoint_add by exact Hlo. f_equal. lia.
  - inversion_clear Hhi as [|? ? Hd Hhi'].
    cbn [map app fold_left length] in Hb |- *.
    assert (Hacc : acc * 128 + d < two64).
    { rewrite digits_cons_acc in Hb.
      assert (1 <= 128 ^ N.of_nat (length (hi ++ [lo]))) by (assert (128 ^ N.of_nat (length (hi ++ [lo])) <> 0) by (apply N.pow_nonzero; lia); lia).
      nia. }
    cbn [read_loop].
    rewrite land_80_cont by exact Hd.
    rewrite land_7f. replace ((d + 128) mod 128) with d by lia.
    rewrite N.shiftl_mul_pow2. change (2 ^ 7) with 128.
    rewrite wrap64_small by lia. change (acc * 128) with (acc * 2 ^ 7).
    rewrite lor_disjoint_add by exact Hd. change (acc * 2 ^ 7) with (acc * 128).
    destruct (map (fun d => d + 128) hi ++ lo :: rest) as [|b r] eqn:E.
    { destruct hi; discriminate. }
    rewrite <- E, IH by assumption. f_equal. lia.
Qed.

Lemma read_encoding v enc rest :
  v < two64 -> is_encoding v enc -> read_vint (enc ++ rest) = (v, length enc).
Proof.
  intros Hv (Hlen & hi & lo & -> & Hhi & Hlo & Hval).
  rewrite app_length, map_length. cbn [length].
  rewrite <- app_assoc. cbn [app].
  unfold read_vint.
  destruct (map (fun d => d + 128) hi ++ lo :: rest) as [|b r] eqn:E.
  { destruct hi; discriminate. }
  rewrite <- E, read_loop_digits.
  - change (fold_left (fun a d => a * 128 + d) (hi ++ [lo]) 0) with (digits_value (hi ++ [lo])).
    rewrite Hval. f_equal; lia.
  - exact Hhi.
  - exact Hlo.
  - change (fold_left (fun a d => a * 128 + d) (hi ++ [lo]) 0) with (digits_value (hi ++ [lo])).
    rewrite Hval. exact Hv.
Qed.

(** Truncated input. *)
Lemma read_loop_all_cont hi : forall acc used,
  Forall (fun d => d < 128) hi -> hi <> [] ->
  snd (read_loop acc used (map (fun d => d + 128) hi)) = 0%nat.
Proof.
  induction hi as [|d hi IH]; intros acc used Hhi Hne; [contradiction|].
  inversion_clear Hhi as [|? ? Hd Hhi'].
  cbn [map read_loop]. rewrite land_80_cont by exact Hd.
  destruct hi as [|d2 hi].
  - reflexivity.
  - cbn [map]. apply IH; [assumption|discriminate].
Qed.

Lemma Forall_firstn' {A} (P : A -> Prop) n l : Forall P l -> Forall P (firstn n l).
Proof. intros H. rewrite <- (firstn_skipn n l), Forall_app in H. tauto. Qed.

Lemma read_truncated v enc k :
  is_encoding v enc -> (k < length enc)%nat -> snd (read_vint (firstn k enc)) = 0%nat.
Proof.
  intros (Hlen & hi & lo & -> & Hhi & Hlo & Hval) Hk.
  rewrite app_length, map_length in Hk. cbn [length] in Hk.
  rewrite firstn_app, map_length.
  replace (k - length hi)%nat with 0%nat by lia. cbn [firstn]. rewrite app_nil_r.
  rewrite firstn_map.
  destruct k as [|k].
  - reflexivity.
  - destruct hi as [|d hi]; [cbn in Hk; lia|].
    unfold read_vint. cbn [firstn map].
    change (d + 128 :: map (fun d => d + 128) (firstn k hi)) with (map (fun d => d + 128) (d :: firstn k hi)).
    apply read_loop_all_cont; [|discriminate].
    inversion_clear Hhi. constructor; [assumption|]. now apply Forall_firstn'.
Qed.

Lemma read_loop_bound d : forall acc used,
  snd (read_loop acc used d) = 0%nat \/ (used <= snd (read_loop acc used d) <= used + length d)%nat.
Proof.
  induction d as [|b r IH]; intros acc used; cbn [read_loop].
  - right. cbn. lia.
  - cbv zeta. destruct (N.land 0x80 b =? 0).
    + right. cbn. lia.
    + destruct r as [|b2 r2]; [left; reflexivity|].
      destruct (IH (N.lor (wrap64 (N.shiftl acc 7)) (N.land 0x7F b)) (S used)) as [H|H]; [left; exact H|right].
      cbn [length] in *. lia.
Qed.

Lemma read_vint_bound d : (snd (read_vint d) <= length d)%nat.
Proof.
  destruct d as [|b r]; [cbn; lia|]. unfold read_vint.
  destruct (read_loop_bound (b :: r) 0 0) as [->|H]; lia.
Qed.

(** Only the bytes consumed matter. *)
Lemma read_loop_prefix d : forall acc used rest v n,
  read_loop acc used d = (v, n) -> (0 < n)%nat -> d <> [] ->
  read_loop acc used (firstn (n - used) d ++ rest) = (v, n) /\ (used < n)%nat.
Proof.
  induction d as [|b r IH]; intros acc used rest v n H Hn Hne; [contradiction|].
  cbn [read_loop] in H. cbv zeta in H.
  destruct (N.land 0x80 b =? 0) eqn:E.
  - inversion H; subst v n. replace (S used - used)%nat with 1%nat by lia.
    cbn [firstn app read_loop]. rewrite E. split; [reflexivity|lia].
  - destruct r as [|b2 r2]; [inversion H; lia|].
    destruct (IH _ _ rest v n H Hn ltac:(discriminate)) as [H1 H2].
    split; [|lia].
    replace (n - used)%nat with (S (n - S used)) by lia.
    cbn [firstn app read_loop]. rewrite E.
    destruct (firstn (n - S used) (b2 :: r2) ++ rest) as [|x y] eqn:E2.
    + exfalso. replace (n - S used)%nat with (S (n - S (S used))) in E2 by lia. discriminate.
    + cbv zeta. exact H1.
Qed.

Lemma read_vint_prefix d rest v n :
  read_vint d = (v, n) -> (0 < n)%nat -> read_vint (firstn n d ++ rest) = (v, n).
Proof.
  intros H Hn. destruct d as [|b r]; [cbn in H; inversion H; lia|].
  unfold read_vint in H.
  destruct (read_loop_prefix _ _ _ rest _ _ H Hn ltac:(discriminate)) as [H1 _].
  rewrite Nat.sub_0_r in H1. unfold read_vint.
  destruct (firstn n (b :: r) ++ rest) eqn:E; [|exact H1].
  destruct n; [lia|discriminate].
Qed.

(** Writing. *)
Lemma size_div128 n : N.size (n / 128) = N.size n - 7.
Proof.
  destruct (N.eq_dec n 0) as [->|Hn]; [reflexivity|].
  destruct (N.ltb_spec n 128) as [H|H].
  - rewrite N.div_small by lia. cbn.
    assert (N.size n <= 7); [|lia].
    rewrite N.size_log2 by lia. assert (N.log2 n < 7) by (apply N.log2_lt_pow2; cbn; lia). lia.
  - rewrite !N.size_log2 by lia.
    change 128 with (2 ^ 7). rewrite <- N.shiftr_div_pow2, N.log2_shiftr.
    assert (7 <= N.log2 n) by (apply N.log2_le_pow2; cbn; lia). lia.
Qed.

Lemma vint_len_step n : n / 128 <> 0 -> vint_len n = S (vint_len (n / 128)).
Proof.
  intros H. unfold vint_len. rewrite size_div128.
  assert (7 < N.size n).
  { rewrite N.size_log2 by lia. assert (7 <= N.log2 n) by (apply N.log2_le_pow2; cbn; lia). lia. }
  lia.
Qed.

Lemma vint_len_1 n : n / 128 = 0 -> vint_len n = 1%nat.
Proof.
  intros H. unfold vint_len.
  assert (N.size n <= 7); [|lia].
  destruct (N.eq_dec n 0) as [->|Hn]; [cbn; lia|].
  rewrite N.size_log2 by lia.
  assert (N.log2 n < 7) by (apply N.log2_lt_pow2; cbn; lia). lia.
Qed.

Lemma vint_len_pos n : (1 <= vint_len n)%nat.
Proof. unfold vint_len. lia. Qed.

Lemma vint_len_max n : n < two64 -> (vint_len n <= 10)%nat.
Proof.
  intros H. unfold vint_len.
  assert (N.size n <= 64); [|lia].
  destruct (N.eq_dec n 0) as [->|Hn]; [cbn; lia|].
  rewrite N.size_log2 by lia.
  assert (N.log2 n < 64) by (apply N.log2_lt_pow2; [lia|exact H]). lia.
Qed.

(** The loop writes the remaining digits, least significant first. *)
Lemma write_loop_fits room : forall inp w,
  (inp = 0 \/ (vint_len inp <= room)%nat) ->
  exists ds, write_loop room inp w = (0, w ++ map (fun d => d + 128) ds) /\
             Forall (fun d => d < 128) ds /\
             digits_value (rev ds) = inp /\
             length ds = (if inp =? 0 then 0%nat else vint_len inp).
Proof.
  induction room as [|room IH]; intros inp w H.
  - destruct H as [->|H]; [|pose proof (vint_len_pos inp); lia].
    exists []. cbn. rewrite app_nil_r. auto.
  - cbn [write_loop]. destruct (N.eqb_spec inp 0) as [->|Hne].
    + exists []. cbn. rewrite app_nil_r. auto.
    + destruct H as [H|H]; [contradiction|].
      rewrite shiftr7, land_7f', lor_80 by lia.
      destruct (IH (inp / 128) (w ++ [inp mod 128 + 128])) as (ds & H1 & H2 & H3 & H4).
      { destruct (N.eq_dec (inp / 128) 0) as [E|E]; [now left|right].
        rewrite vint_len_step in H by exact E. lia. }
      exists (inp mod 128 :: ds). rewrite H1. split; [|split; [|split]].
      * cbn [map]. now rewrite <- app_assoc.
      * constructor; [lia|exact H2].
      * cbn [rev]. rewrite digits_snoc, H3. lia.
      * cbn [length]. rewrite H4. destruct (N.eqb_spec (inp / 128) 0) as [E|E].
        -- now rewrite vint_len_1.
        -- now rewrite (vint_len_step inp).
Qed.

Lemma write_loop_short room : forall inp w,
  inp <> 0 -> (room < vint_len inp)%nat ->
  exists r ds, write_loop room inp w = (r, w ++ ds) /\ r <> 0 /\ length ds = room.
Proof.
  induction room as [|room IH]; intros inp w H Hl.
  - exists inp, []. cbn. rewrite app_nil_r. auto.
  - cbn [write_loop]. destruct (N.eqb_spec inp 0) as [E|_]; [contradiction|].
    rewrite shiftr7.
    destruct (N.eq_dec (inp / 128) 0) as [E|E].
    { rewrite vint_len_1 in Hl by exact E. lia. }
    rewrite vint_len_step in Hl by exact E.
    destruct (IH (inp / 128) (w ++ [N.lor 0x80 (N.land inp 0x7F)]) E ltac:(lia)) as (r & ds & H1 & H2 & H3).
    exists r, (N.lor 0x80 (N.land inp 0x7F) :: ds). rewrite H1, <- app_assoc. cbn. auto.
Qed.

Lemma write_vint_eq v buf : buf <> [] ->
  write_vint v buf =
  let (rest, w) := write_loop (length buf - 1) (N.shiftr v 7) [N.land 0x7F v] in
  if negb (rest =? 0) then (0%nat, w ++ skipn (length w) buf)
  else (length w, rev w ++ skipn (length w) buf).
Proof. destruct buf; [contradiction|reflexivity]. Qed.

Lemma write_vint_fits v buf :
  (vint_len v <= length buf)%nat ->
  exists enc, is_encoding v enc /\
              write_vint v buf = (vint_len v, enc ++ skipn (vint_len v) buf).
Proof.
  intros H. pose proof (vint_len_pos v) as Hp.
  rewrite write_vint_eq by (intros ->; cbn in H; lia).
  rewrite shiftr7, land_7f.
  destruct (write_loop_fits (length buf - 1) (v / 128) [v mod 128]) as (ds & H1 & H2 & H3 & H4).
  { destruct (N.eq_dec (v / 128) 0) as [E|E]; [now left|right].
    rewrite vint_len_step in H by exact E. lia. }
  rewrite H1. cbn [negb N.eqb].
  assert (Hlen : length ([v mod 128] ++ map (fun d => d + 128) ds) = vint_len v).
  { cbn [app length]. rewrite map_length, H4. destruct (N.eqb_spec (v / 128) 0) as [E|E].
    - now rewrite vint_len_1.
    - now rewrite (vint_len_step v). }
  rewrite Hlen.
  exists (rev ([v mod 128] ++ map (fun d => d + 128) ds)). split; [|reflexivity].
  split.
  - now rewrite rev_length.
  - exists (rev ds), (v mod 128). cbn [app rev]. rewrite map_rev.
    repeat split; auto.
    + now apply Forall_rev.
    + lia.
    + rewrite digits_snoc, H3. lia.
Qed.

Lemma write_vint_short v buf :
  (length buf < vint_len v)%nat ->
  exists junk, length junk = length buf /\ write_vint v buf = (0%nat, junk).
Proof.
  intros H. destruct (length buf) as [|n] eqn:En.
  - exists []. destruct buf; [auto|discriminate].
  - rewrite write_vint_eq by (intros ->; discriminate). rewrite <- En in *.
    assert (Hb : (1 <= length buf)%nat) by lia.
    rewrite shiftr7.
    assert (E : v / 128 <> 0).
    { intros E. rewrite vint_len_1 in H by exact E. lia. }
    rewrite vint_len_step in H by exact E.
    destruct (write_loop_short (length buf - 1) (v / 128) [N.land 0x7F v] E ltac:(lia)) as (r & ds & H1 & H2 & H3).
    rewrite H1. destruct (N.eqb_spec r 0) as [E2|_]; [contradiction|]. cbn [negb].
    eexists. split; [|reflexivity].
    rewrite app_length, skipn_length. cbn [app length]. lia.
Qed.

Lemma is_encoding_bytes v enc : is_encoding v enc -> is_bytes enc.
Proof.
  intros (_ & hi & lo & -> & Hhi & Hlo & _). apply Forall_app. split.
  - apply Forall_map. eapply Forall_impl; [|exact Hhi]. unfold is_byte. intros; lia.
  - constructor; [unfold is_byte; lia|constructor].
Qed.
