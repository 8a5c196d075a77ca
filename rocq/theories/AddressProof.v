From Verif Require Import Base AddressSpec Address.
Local Open Scope N_scope.

Lemma skipn_skipn {A} (l : list A) : forall m n, skipn m (skipn n l) = skipn (m + n) l.
Proof.
  induction l as [|x l IH]; intros m n; [now rewrite !skipn_nil|]. destruct n as [|n].
  - now rewrite Nat.add_0_r.
  - rewrite Nat.add_succ_r. cbn [skipn]. apply IH.
Qed.
Definition no_sep (s : list N) : Prop := Forall (fun c => c <> colon /\ c <> slash) s.
Definition no_colon (s : list N) : Prop := Forall (fun c => c <> colon) s.

Lemma find_first_app s c r : no_sep s -> c = colon \/ c = slash -> find_first (s ++ c :: r) = Some (length s).
Proof.
  intros N Hc. induction N as [|a s [Ha Hb] N IH].
  - cbn. destruct Hc as [-> | ->]; reflexivity.
  - cbn [app find_first length]. destruct (N.eqb_spec a colon); [contradiction|]. destruct (N.eqb_spec a slash); [contradiction|].
    cbn [orb]. now rewrite IH.
Qed.
Lemma find_last_none s : no_colon s -> find_last s = None.
Proof.
  intros N. induction N as [|a s Ha N IH]; [reflexivity|]. cbn. rewrite IH. destruct (N.eqb_spec a colon); [contradiction|reflexivity].
Qed.
Lemma find_last_app s r : no_colon r -> find_last (s ++ colon :: r) = Some (length s).
Proof.
  intros N. induction s as [|a s IH]; cbn [app find_last length].
  - now rewrite (find_last_none r N).
  - now rewrite IH.
Qed.
Lemma find_last_lt s k : find_last s = Some k -> (k < length s)%nat /\ nth_error s k = Some colon.
Proof.
  revert k. induction s as [|a s IH]; intros k E; [discriminate|]. cbn in E. destruct (find_last s) as [j|].
  - injection E as <-. destruct (IH j eq_refl). cbn. split; [lia|assumption].
  - destruct (N.eqb_spec a colon) as [->|]; [|discriminate]. injection E as <-. cbn. split; [lia|reflexivity].
Qed.
Lemma find_last_none_inv s : find_last s = None -> no_colon s.
Proof.
  induction s as [|a s IH]; intros F; [constructor|]. cbn [find_last] in F. destruct (find_last s); [discriminate|].
  destruct (N.eqb_spec a colon); [discriminate|]. constructor; [assumption|now apply IH].
Qed.
Lemma find_last_rest s : forall k, find_last s = Some k -> no_colon (skipn (k + 1) s).
Proof.
  induction s as [|a s IH]; intros k E; [discriminate|]. cbn [find_last] in E. destruct (find_last s) as [j|] eqn:F.
  - injection E as <-. apply (IH j eq_refl).
  - destruct (a =? colon); [|discriminate]. injection E as <-. apply (find_last_none_inv s F).
Qed.
Lemma find_first_spec s k : find_first s = Some k -> (k < length s)%nat /\ no_sep (firstn k s) /\
  (nth_error s k = Some colon \/ nth_error s k = Some slash).
Proof.
  revert k. induction s as [|a s IH]; intros k E; [discriminate|]. cbn [find_first] in E.
  destruct (N.eqb_spec a colon) as [->|Ha].
  - injection E as <-. cbn. repeat split; [lia|constructor|now left].
  - destruct (N.eqb_spec a slash) as [->|Hb].
    + injection E as <-. cbn. repeat split; [lia|constructor|now right].
    + cbn [orb] in E. destruct (find_first s) as [j|]; [|discriminate]. injection E as <-.
      destruct (IH j eq_refl) as (A & B & C). cbn. repeat split; [lia|constructor; auto|exact C].
Qed.
Lemma find_first_none s : find_first s = None <-> no_sep s.
Proof.
  induction s as [|a s IH]; [split; [constructor|reflexivity]|]. cbn [find_first]. split.
  - destruct (N.eqb_spec a colon); [discriminate|]. destruct (N.eqb_spec a slash); [discriminate|]. cbn [orb].
    destruct (find_first s); [discriminate|]. intros _. constructor; [auto|now apply IH].
  - intros H. inversion_clear H as [|? ? [Ha Hb] H']. apply IH in H'. rewrite H'.
    destruct (N.eqb_spec a colon); [contradiction|]. destruct (N.eqb_spec a slash); [contradiction|]. reflexivity.
Qed.

(** Decimal text *)
Lemma dec_value_app ds es : dec_value (ds ++ es) = fold_left (fun v c => 10 * v + digit_val c) es (dec_value ds).
Proof. unfold dec_value. apply fold_left_app. Qed.
Lemma dec_fold_shift es : forall v w, fold_left (fun v c => 10 * v + digit_val c) es (v + w) =
  v * 10 ^ N.of_nat (length es) + fold_left (fun v c => 10 * v + digit_val c) es w.
Proof.
  induction es as [|e es IH]; intros v w; cbn [fold_left length].
  - change (10 ^ N.of_nat 0) with 1. lia.
  - replace (10 * (v + w) + digit_val e) with (10 * v + (10 * w + digit_val e)) by lia. rewrite IH.
    rewrite Nat2N.inj_succ, N.pow_succ_r'. generalize (10 ^ N.of_nat (length es)). intros p. lia.
Qed.

Lemma dec_digits_spec fuel : forall n acc, n < 10 ^ N.of_nat fuel -> (0 < fuel)%nat ->
  exists ds, dec_digits fuel n acc = ds ++ acc /\ Forall is_digit ds /\ dec_value ds = n /\ ds <> [] /\ (hd 0 ds = 48 -> ds = [48]).
Proof.
  induction fuel as [|f IH]; intros n acc Hn Hf; [lia|]. cbn [dec_digits].
  assert (Hd : is_digit (48 + n mod 10)) by (unfold is_digit; lia).
  destruct (N.ltb_spec n 10) as [H|H].
  - exists [48 + n mod 10]. split; [reflexivity|]. split; [repeat constructor; apply Hd|].
    assert (E : n mod 10 = n) by (apply N.mod_small; lia). rewrite E.
    split; [|split; [discriminate|]].
    + unfold dec_value, digit_val. cbn [fold_left]. lia.
    + cbn [hd]. intros ->. reflexivity.
  - destruct f as [|f']; [change (10 ^ N.of_nat 1) with 10 in Hn; lia|]. rewrite Nat2N.inj_succ, N.pow_succ_r' in Hn.
    destruct (IH (n / 10) ((48 + n mod 10) :: acc)) as (ds & E & F & V & Nn & Z); [|lia|].
    { apply N.div_lt_upper_bound; [lia|exact Hn]. }
    exists (ds ++ [48 + n mod 10]). split; [rewrite E, <- app_assoc; reflexivity|]. split; [apply Forall_app; auto|].
    split; [|split].
    + rewrite dec_value_app. cbn [fold_left]. rewrite V. unfold digit_val. lia.
    + destruct ds; discriminate.
    + intros Hh. destruct ds as [|d ds]; [contradiction|]. cbn [app hd] in Hh. specialize (Z Hh). rewrite Z in V.
      unfold dec_value, digit_val in V. cbn in V. lia.
Qed.

Lemma print_int_spec z : (0 <= z < 2147483648)%Z -> decimal_text (Z.to_N z) (print_int z).
Proof.
  intros H. destruct (dec_digits_spec 20 (Z.to_N z) []) as (ds & E & A & B & C & D); [|lia|].
  - change (N.of_nat 20) with 20. change (10 ^ 20) with 100000000000000000000. lia.
  - unfold print_int. rewrite E, app_nil_r. repeat split; auto.
Qed.

Lemma take_digits_all ds : Forall is_digit ds -> take_digits ds = ds.
Proof.
  induction 1 as [|d ds Hd H IH]; [reflexivity|]. cbn [take_digits]. unfold is_digitb.
  unfold is_digit in Hd. destruct (N.leb_spec 48 d); [|lia]. destruct (N.leb_spec d 57); [|lia]. cbn [andb]. now rewrite IH.
Qed.
Lemma scan_decimal n ds : decimal_text n ds -> n < 2147483648 -> scan_int ds = Some (Some (Z.of_N n)).
Proof.
  intros (F & V & Ne & _) Hn. destruct ds as [|d ds]; [contradiction|]. inversion F as [|? ? Hd F']; subst.
  assert (S : skip_space (d :: ds) = d :: ds).
  { cbn [skip_space]. unfold is_space. unfold is_digit in Hd. destruct (N.eqb_spec d 32); [lia|]. destruct (N.leb_spec d 13); [lia|].
    rewrite andb_false_r. reflexivity. }
  unfold scan_int. cbv zeta. rewrite S. unfold is_digit in Hd. destruct (N.eqb_spec d 45); [lia|]. destruct (N.eqb_spec d 43); [lia|].
  rewrite (take_digits_all (d :: ds) F). unfold dec_value, digit_val in Hn. unfold dec_value, digit_val.
  generalize dependent (fold_left (fun v c => 10 * v + (c - 48)) (d :: ds) 0). intros v Hn.
  destruct (Z.leb_spec (-2147483648) (Z.of_N v)); [|lia]. destruct (Z.leb_spec (Z.of_N v) 2147483647); [reflexivity|lia].
Qed.
Lemma digits_no_colon ds : Forall is_digit ds -> no_colon ds.
Proof. intros H. eapply Forall_impl; [|exact H]. unfold is_digit, colon. intros; lia. Qed.

Lemma skipn_exact {A} (l r : list A) n : n = length l -> skipn n (l ++ r) = r.
Proof. intros ->. rewrite skipn_app, skipn_all, Nat.sub_diag. reflexivity. Qed.
Lemma firstn_exact {A} (l r : list A) n : n = length l -> firstn n (l ++ r) = l.
Proof. intros ->. rewrite firstn_app, firstn_all, Nat.sub_diag. cbn. apply app_nil_r. Qed.

Lemma parse_with_port scheme host port : no_sep scheme -> (0 < port < 2147483648)%Z ->
  parse_address (a_address (build_address scheme host port)) = Parsed (build_address scheme host port).
Proof.
  intros Hs Hp. unfold build_address. cbn [a_address]. destruct (Z.ltb_spec 0 port); [|lia].
  pose proof (print_int_spec port ltac:(lia)) as Hd. set (ds := print_int port) in *.
  set (s := scheme ++ sep3 ++ host ++ colon :: ds).
  assert (E1 : find_first s = Some (length scheme)) by (apply find_first_app; auto).
  assert (Es : s = (scheme ++ sep3 ++ host) ++ colon :: ds) by (unfold s; now rewrite <- !app_assoc).
  assert (E2 : find_last s = Some (length scheme + 3 + length host)%nat).
  { rewrite Es, find_last_app by (apply digits_no_colon, Hd). rewrite !app_length. cbn. f_equal. lia. }
  unfold parse_address. rewrite E1, E2. cbv zeta.
  destruct (Nat.leb_spec (length scheme + 3) (length scheme + 3 + length host)); [|lia].
  assert (E3 : skipn (length scheme + 3 + length host + 1) s = ds).
  { rewrite Es. change (colon :: ds) with ([colon] ++ ds). rewrite app_assoc. apply skipn_exact. rewrite !app_length. cbn. lia. }
  rewrite E3, (scan_decimal (Z.to_N port) ds Hd) by lia.
  destruct (Nat.ltb_spec (length s) (length scheme + 3)) as [C|_].
  { unfold s in C. rewrite !app_length in C. cbn in C. lia. }
  assert (E4 : skipn (length scheme + 3) s = host ++ colon :: ds).
  { unfold s. rewrite app_assoc. apply skipn_exact. rewrite app_length. reflexivity. }
  rewrite E4. rewrite (firstn_exact host) by lia.
  assert (E5 : firstn (length scheme) s = scheme) by (unfold s; now apply firstn_exact).
  rewrite E5, Z2N.id by lia. reflexivity.
Qed.

Lemma parse_without_port scheme host : no_sep scheme -> no_colon host ->
  parse_address (a_address (build_address scheme host 0)) = Parsed (build_address scheme host 0).
Proof.
  intros Hs Hh. unfold build_address. cbn [a_address]. change (0 <? 0)%Z with false. cbv iota. rewrite app_nil_r.
  set (s := scheme ++ sep3 ++ host).
  assert (E1 : find_first s = Some (length scheme)) by (apply find_first_app; auto).
  assert (E2 : find_last s = Some (length scheme)).
  { unfold s. change (sep3 ++ host) with (colon :: ([slash; slash] ++ host)). apply find_last_app. repeat constructor; [discriminate|discriminate|exact Hh]. }
  unfold parse_address. rewrite E1, E2. cbv zeta.
  destruct (Nat.leb_spec (length scheme + 3) (length scheme)); [lia|].
  destruct (Nat.ltb_spec (length s) (length scheme + 3)) as [C|_].
  { unfold s in C. rewrite !app_length in C. cbn in C. lia. }
  assert (E4 : skipn (length scheme + 3) s = host).
  { unfold s. rewrite app_assoc. apply skipn_exact. rewrite app_length. reflexivity. }
  assert (E5 : firstn (length scheme) s = scheme) by (unfold s; now apply firstn_exact).
  rewrite E4, E5. reflexivity.
Qed.

(** What a successful parse means for an arbitrary text. *)
Lemma parse_structure s a : parse_address s = Parsed a ->
  a_address a = s /\ no_sep (a_scheme a) /\
  exists sep tail, length sep = 3%nat /\ s = a_scheme a ++ sep ++ a_host a ++ tail /\
    (hd 0 sep = colon \/ hd 0 sep = slash) /\
    (tail = [] /\ a_port a = 0%Z \/
     exists text, tail = colon :: text /\ no_colon text /\
       (scan_int text = Some (Some (a_port a)) \/ (scan_int text = Some None /\ a_port a = 0%Z))).
Proof.
  unfold parse_address. destruct (find_first s) as [se|] eqn:E1; [|discriminate].
  destruct (find_first_spec s se E1) as (L1 & N1 & C1). cbv zeta.
  assert (Sep : (length s <? se + 3)%nat = false -> exists sep, length sep = 3%nat /\ s = firstn se s ++ sep ++ skipn (se + 3) s /\ (hd 0 sep = colon \/ hd 0 sep = slash)).
  { intros L2. apply Nat.ltb_ge in L2. exists (firstn 3 (skipn se s)). split; [rewrite firstn_length, skipn_length; lia|]. split.
    - replace (skipn (se + 3) s) with (skipn 3 (skipn se s)) by (rewrite skipn_skipn, Nat.add_comm; reflexivity).
      now rewrite firstn_skipn, firstn_skipn.
    - rewrite <- (firstn_skipn se s) in C1. rewrite nth_error_app2 in C1; rewrite firstn_length_le in * by lia; [|lia].
      rewrite Nat.sub_diag in C1. destruct (skipn se s) as [|c r]; [destruct C1; discriminate|]. cbn in *.
      destruct C1 as [C1|C1]; injection C1 as ->; auto. }
  destruct (find_last s) as [k|] eqn:E2.
  - destruct (find_last_lt s k E2) as [L3 C3]. destruct (Nat.leb_spec (se + 3) k) as [H|H].
    + destruct (scan_int (skipn (k + 1) s)) as [sc|] eqn:E3; [|discriminate].
      assert (L2 : (length s <? se + 3)%nat = false) by (apply Nat.ltb_ge; lia).
      destruct (Sep L2) as (sep & S1 & S2 & S3).
      assert (T : skipn (se + 3) s = firstn (k - se - 3) (skipn (se + 3) s) ++ colon :: skipn (k + 1) s).
      { rewrite <- (firstn_skipn (k - se - 3) (skipn (se + 3) s)) at 1. f_equal. rewrite skipn_skipn.
        replace (k - se - 3 + (se + 3))%nat with k by lia.
        rewrite <- (firstn_skipn k s) in C3. rewrite nth_error_app2 in C3; rewrite firstn_length_le in * by lia; [|lia].
        rewrite Nat.sub_diag in C3. replace (skipn (k + 1) s) with (skipn 1 (skipn k s)) by (rewrite skipn_skipn, Nat.add_comm; reflexivity).
        destruct (skipn k s) as [|c r]; [discriminate|]. injection C3 as ->. reflexivity. }
      assert (NC : no_colon (skipn (k + 1) s)).
      { exact (find_last_rest s k E2). }
      destruct sc as [z|]; rewrite L2; intros E; injection E as <-; cbn [a_address a_scheme a_host a_port];
        (split; [reflexivity|]); (split; [exact N1|]); exists sep, (colon :: skipn (k + 1) s); (split; [exact S1|]);
        (split; [rewrite <- T; exact S2|]); (split; [exact S3|]); right; exists (skipn (k + 1) s); auto.
    + destruct (length s <? se + 3)%nat eqn:L2; [discriminate|]. intros E; injection E as <-; cbn [a_address a_scheme a_host a_port].
      destruct (Sep eq_refl) as (sep & S1 & S2 & S3). split; [reflexivity|]. split; [exact N1|]. exists sep, []. rewrite app_nil_r. split; [exact S1|]. split; [exact S2|]. split; [exact S3|]. left. auto.
  - destruct (length s <? se + 3)%nat eqn:L2; [discriminate|]. intros E; injection E as <-; cbn [a_address a_scheme a_host a_port].
    destruct (Sep eq_refl) as (sep & S1 & S2 & S3). split; [reflexivity|]. split; [exact N1|]. exists sep, []. rewrite app_nil_r. split; [exact S1|]. split; [exact S2|]. split; [exact S3|]. left. auto.
Qed.

Lemma parse_throws s : parse_address s = Throws <->
  exists scheme rest, s = scheme ++ rest /\ no_sep scheme /\ (1 <= length rest <= 2)%nat /\ (hd 0 rest = colon \/ hd 0 rest = slash).
Proof.
  unfold parse_address. cbv zeta. destruct (find_first s) as [se|] eqn:E1.
  - destruct (find_first_spec s se E1) as (L1 & N1 & C1).
    assert (NP : (length s < se + 3)%nat -> (match find_last s with Some k => if (se + 3 <=? k)%nat then
        match scan_int (skipn (k + 1) s) with Some (Some z) => Some z | Some None => Some 0%Z | None => None end else Some 0%Z | None => Some 0%Z end) = Some 0%Z).
    { intros L. destruct (find_last s) as [k|] eqn:E2; [|reflexivity]. destruct (find_last_lt s k E2). destruct (Nat.leb_spec (se + 3) k); [lia|reflexivity]. }
    split.
    + destruct (Nat.ltb_spec (length s) (se + 3)) as [L|L].
      * intros _. exists (firstn se s), (skipn se s). split; [now rewrite firstn_skipn|]. split; [exact N1|]. split; [rewrite skipn_length; lia|].
        rewrite <- (firstn_skipn se s) in C1. rewrite nth_error_app2 in C1; rewrite firstn_length_le in * by lia; [|lia].
        rewrite Nat.sub_diag in C1. destruct (skipn se s) as [|c r]; [destruct C1; discriminate|]. cbn in *.
        destruct C1 as [C1|C1]; injection C1 as ->; auto.
      * destruct (match find_last s with Some _ => _ | None => _ end); discriminate.
    + intros (sc & rest & -> & Ns & Lr & Hh). destruct rest as [|c r]; [cbn in Lr; lia|]. cbn [hd] in Hh.
      rewrite (find_first_app sc c r Ns Hh) in E1. injection E1 as <-.
      rewrite app_length in *. destruct (Nat.ltb_spec (length sc + length (c :: r)) (length sc + 3)) as [L|L]; [|lia].
      rewrite NP by lia. reflexivity.
  - split; [discriminate|]. intros (sc & rest & -> & Ns & Lr & Hh). destruct rest as [|c r]; [cbn in Lr; lia|].
    rewrite (find_first_app sc c r Ns Hh) in E1. discriminate.
Qed.

(** Predicates *)
Lemma prefix_nocase_iff p s : prefix_nocase p s = true <-> exists a b, s = a ++ b /\ same_nocase a p.
Proof.
  unfold same_nocase. revert s. induction p as [|x p IH]; intros s.
  - cbn. split; [|reflexivity]. intros _. exists [], s. auto.
  - destruct s as [|y s]; cbn [prefix_nocase].
    + split; [discriminate|]. intros (a & b & E & H). destruct a; [discriminate|discriminate].
    + rewrite andb_true_iff, N.eqb_eq, IH. split.
      * intros (E & a & b & -> & H). exists (y :: a), b. split; [reflexivity|]. cbn. congruence.
      * intros (a & b & E & H). destruct a as [|z a]; [discriminate|]. injection E as <- ->. cbn in H. injection H as H1 H2. eauto.
Qed.
Lemma lower_colon c : lower c = 58 <-> c = 58.
Proof. unfold lower. destruct (N.leb_spec 65 c), (N.leb_spec c 90); cbn [andb]; lia. Qed.

(** With a ':' after a scheme free of separators the prefix test is a test of the scheme. *)
Lemma prefix_scheme name scheme rest : no_sep scheme -> Forall (fun c => c <> colon) name ->
  prefix_nocase (name ++ [58]) (scheme ++ colon :: rest) = true <-> same_nocase scheme name.
Proof.
  unfold same_nocase, colon. revert scheme. induction name as [|x name IH]; intros scheme Hs Hn.
  - destruct scheme as [|y scheme]; cbn [app prefix_nocase map].
    + split; reflexivity.
    + inversion_clear Hs as [|? ? [Hy _] _]. split; [|discriminate]. rewrite andb_true_r, N.eqb_eq. intros E. symmetry in E. change (lower 58) with 58 in E. apply (proj1 (lower_colon _)) in E. exfalso; now apply Hy.
  - inversion_clear Hn as [|? ? Hx Hn']. destruct scheme as [|y scheme]; cbn [app prefix_nocase map].
    + split; [|discriminate]. rewrite andb_true_iff, N.eqb_eq. intros [E _]. change (lower 58) with 58 in E. apply (proj1 (lower_colon _)) in E. contradiction.
    + inversion_clear Hs as [|? ? _ Hs']. rewrite andb_true_iff, N.eqb_eq, (IH scheme Hs' Hn'). split; [intros [A B]; congruence|intros E; injection E; auto].
Qed.
Lemma lower_lower c : lower (lower c) = lower c.
Proof.
  unfold lower. destruct (65 <=? c) eqn:A, (c <=? 90) eqn:B; cbn [andb]; rewrite ?A, ?B; cbn [andb]; auto.
  destruct (65 <=? c + 32) eqn:C, (c + 32 <=? 90) eqn:D; cbn [andb]; lia.
Qed.
Lemma prefix_map_lower p s : prefix_nocase p s = prefix_nocase p (map lower s).
Proof.
  revert s. induction p as [|x p IH]; intros [|y s]; try reflexivity. cbn [prefix_nocase map]. now rewrite IH, lower_lower.
Qed.

Lemma find_last_split s k : find_last s = Some k -> exists pre, s = pre ++ colon :: skipn (k + 1) s.
Proof.
  intros E. destruct (find_last_lt s k E) as [L C]. exists (firstn k s).
  rewrite <- (firstn_skipn k s) at 1. f_equal.
  rewrite <- (firstn_skipn k s) in C. rewrite nth_error_app2 in C; rewrite firstn_length_le in * by lia; [|lia].
  rewrite Nat.sub_diag in C. replace (skipn (k + 1) s) with (skipn 1 (skipn k s)) by (rewrite skipn_skipn, Nat.add_comm; reflexivity).
  destruct (skipn k s) as [|c r]; [discriminate|]. injection C as ->. reflexivity.
Qed.
