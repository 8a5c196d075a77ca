(** Lemmas for the receiving side of the stream channel. *)
From Verif Require Import Base BufferSpec Buffer BufDynProof Vint VintSpec VintProof Mem MemSpec MemProof IoSpec IoRecv IoRecvSpec.
Local Open Scope N_scope.
Ltac Zify.zify_post_hook ::= idtac.

(** ** Stream bytes as the receiver reads them *)
Definition reads (enc : bytes) (len : N) : Prop := enc <> [] /\ len < two64 /\ forall rest, read_vint (enc ++ rest) = (len, length enc).

Inductive scanned : bytes -> list (N * bytes) -> bytes -> Prop :=
| scanned_nil r : scanned r [] r
| scanned_cons h4 enc p ws items r : length h4 = 4%nat -> reads enc (blen p) -> scanned ws items r ->
    scanned (h4 ++ enc ++ p ++ ws) ((bytes_word h4, p) :: items) r.

Definition incomplete (r : bytes) : Prop :=
  blen r <= 4 \/ snd (read_vint (skipn 4 r)) = 0%nat \/
  exists h4 enc part len, r = h4 ++ enc ++ part /\ length h4 = 4%nat /\ reads enc len /\ blen part < len.

Lemma scanned_app R items r : scanned R items r -> forall d items' r', scanned (r ++ d) items' r' -> scanned (R ++ d) (items ++ items') r'.
Proof.
  induction 1 as [r|h4 enc p ws items r H E S IH]; intros d items' r' S'; cbn [app]; trivial.
  repeat rewrite <- app_assoc. constructor; auto.
Qed.

Lemma read_loop_lt d : forall out used, out < two64 -> fst (read_loop out used d) < two64.
Proof.
  induction d as [|b r IH]; intros out used H; cbn [read_loop fst]; trivial.
  assert (X : N.lor (wrap64 (N.shiftl out 7)) (N.land 0x7F b) < two64).
  { rewrite land_7f. unfold wrap64, two64. rewrite N.shiftl_mul_pow2.
    rewrite <- (N.land_ones _ 64). assert (E : b mod 128 = N.land (b mod 128) (N.ones 64)).
    { rewrite N.land_ones. symmetry. apply N.mod_small. pose proof (N.mod_lt b 128). change (2 ^ 64) with 18446744073709551616. lia. }
    rewrite E, <- N.land_lor_distr_l, N.land_ones. apply N.mod_lt. lia. }
  destruct (N.land 0x80 b =? 0); cbn [fst]; trivial. destruct r; cbn [fst]; trivial. apply IH. trivial.
Qed.
Lemma read_vint_lt d : fst (read_vint d) < two64.
Proof. unfold read_vint. destruct d; [reflexivity|]. apply read_loop_lt. reflexivity. Qed.

Lemma skipn_add {A} a : forall b (l : list A), skipn b (skipn a l) = skipn (a + b) l.
Proof. induction a as [|a IH]; intros b l; [reflexivity|]. destruct l; [now rewrite !skipn_nil|]. cbn [skipn Nat.add]. apply IH. Qed.

(** Splitting a buffer at a successfully read length. *)
Lemma read_split buff len vl : (4 <= length buff)%nat -> read_vint (skipn 4 buff) = (len, vl) -> vl <> 0%nat ->
  exists h4 enc area, buff = h4 ++ enc ++ area /\ length h4 = 4%nat /\ length enc = vl /\ reads enc len /\ skipn (4 + vl) buff = area /\ firstn 4 buff = h4.
Proof.
  intros L E V. exists (firstn 4 buff), (firstn vl (skipn 4 buff)), (skipn (4 + vl) buff).
  pose proof (read_vint_bound (skipn 4 buff)) as B. rewrite E in B. cbn [snd] in B.
  assert (Le : length (firstn vl (skipn 4 buff)) = vl) by (rewrite firstn_length; lia).
  split; [|split; [rewrite firstn_length; lia|split; [trivial|split; [split; [|split]|split; reflexivity]]]].
  - rewrite <- (firstn_skipn 4 buff) at 1. apply (f_equal (fun z => firstn 4 buff ++ z)).
    rewrite <- (firstn_skipn vl (skipn 4 buff)) at 1. now rewrite skipn_add.
  - intros Z. rewrite Z in Le. cbn in Le. lia.
  - pose proof (read_vint_lt (skipn 4 buff)) as X. now rewrite E in X.
  - intros rest. rewrite Le. apply (read_vint_prefix _ _ _ _ E). lia.
Qed.

Lemma blen_app (a b : bytes) : blen (a ++ b) = blen a + blen b.
Proof. unfold blen. rewrite app_length. lia. Qed.

(** ** Receiver states *)
Section P.
Variables (cfg : rcfg) (hash : bytes -> N).
Notation verdict := (verdict cfg hash).
Notation expected := (expected hash (c_limit cfg)).
Definition over1 (x : N * bytes) : bool := negb (damaged hash x) && oversize (c_limit cfg) x.

Definition lim0 : limit := {| cost_number := 0; cost_size := 0; limit_number := 0; limit_size := c_max cfg |}.

(** The receiver holds the unfinished bytes [rest]. *)
Inductive holds : rx -> bytes -> Prop :=
| holds_head s : d_list (r_big s) = [] -> d_lim (r_big s) = lim0 -> incomplete (r_head s) -> blen (r_head s) <= head_cap -> holds s (r_head s)
| holds_block s b h4 enc part len : r_head s = [] -> d_list (r_big s) = [b] ->
    d_lim (r_big s) = {| cost_number := 1; cost_size := d_left b; limit_number := 0; limit_size := c_max cfg |} ->
    length h4 = 4%nat -> reads enc len -> blen part < len ->
    d_size b = 4 + len -> d_used b = 4 + blen part -> blen (d_bytes b) = 4 + len -> 4 + len < two64 ->
    (0 < c_max cfg -> 4 + len <= c_max cfg) ->
    firstn (N.to_nat (4 + blen part)) (d_bytes b) = h4 ++ part ->
    holds s (h4 ++ enc ++ part).

Lemma holds_incomplete s r : holds s r -> incomplete r.
Proof. intros [s' H1 H2 H3 H4|s' b h4 enc part len H1 H2 H3 H4 H5 H6 _ _ _ _ _ _]; trivial. right. right. exists h4, enc, part, len. auto. Qed.

(** A frame whose block could not be allocated. *)
Definition refused (ok : bool) (rest : bytes) : Prop :=
  exists h4 enc part len, rest = h4 ++ enc ++ part /\ length h4 = 4%nat /\ reads enc len /\ blen part < len /\
    (ok = false \/ 0 < c_max cfg < 4 + len).

Lemma verdict_spec s h p : exists x fr, verdict s h p = (fst (expected (h, p)), x, fr) /\
  r_head x = r_head s /\ r_big x = r_big s /\ r_open x = r_open s /\ r_ea x = r_ea s /\
  r_sf x = r_sf s + number over1 [(h, p)] /\ r_hf x = r_hf s + number (damaged hash) [(h, p)] /\
  (fr = true -> c_hash cfg < r_hf x \/ c_size cfg < r_sf x).
Proof.
  unfold IoRecv.verdict, IoSpec.expected, over1, damaged, oversize, number. cbn [fst snd filter].
  destruct (hash p =? h) eqn:E; cbn [negb andb length filter];
    [destruct ((0 <? c_limit cfg) && (c_limit cfg <? blen p)) eqn:E2; cbn [negb andb length filter]|]; eexists _, _; (split; [reflexivity|]);
    cbn [r_head r_big r_open r_ea r_sf r_hf count]; repeat (split; [trivial; try lia|]); try discriminate; intros F; apply N.ltb_lt in F; lia.
Qed.

Lemma number_app {A} (f : A -> bool) a b : number f (a ++ b) = number f a + number f b.
Proof. unfold number. rewrite filter_app, app_length. lia. Qed.
Lemma number_cons {A} (f : A -> bool) x b : number f (x :: b) = number f [x] + number f b.
Proof. apply (number_app f [x] b). Qed.

Lemma fill_push b d lim : (N.to_nat (d_used b) + length d <= length (d_bytes b))%nat ->
  fill {| d_list := [b]; d_lim := lim |} d = Some {| d_list := [{| d_size := d_size b; d_used := d_used b;
     d_bytes := firstn (N.to_nat (d_used b)) (d_bytes b) ++ d ++ skipn (N.to_nat (d_used b) + length d) (d_bytes b) |}]; d_lim := lim |}.
Proof. intros H. unfold fill. cbn [d_list]. change (last_split [b]) with (Some ([] : list dblock, b)). cbn iota beta zeta. now rewrite (proj2 (Nat.leb_le _ _) H). Qed.

Lemma pop_one b lim k : k <= d_left b -> d_used b <= d_size b -> d_size b < two64 -> 0 < d_left b - k \/ k <= d_left b ->
  d_pop_back {| d_list := [b]; d_lim := lim |} k false =
  (SUCCESS, {| d_list := [{| d_size := d_size b; d_used := d_used b + k; d_bytes := d_bytes b |}]; d_lim := fix_limit false lim k |}).
Proof.
  intros H H1 H2 _. unfold d_pop_back. cbn [d_list]. change (last_split [b]) with (Some ([] : list dblock, b)). cbn iota beta.
  unfold d_pop_block. rewrite (proj2 (N.ltb_ge _ _) H). cbn [andb]. unfold d_pop, d_left in *.
  rewrite wrap64_small by lia. rewrite (proj2 (N.ltb_ge _ _)) by lia. reflexivity.
Qed.

(** A frame announcing [n] bytes comes next in [R]. *)
Definition announced (R : bytes) (n : N) : Prop :=
  exists got h4 enc part, scanned R got (h4 ++ enc ++ part) /\ length h4 = 4%nat /\ reads enc n.
Lemma announced_app R got rest d n : scanned R got rest -> announced (rest ++ d) n -> announced (R ++ d) n.
Proof. intros S (got' & h4 & enc & part & S' & L). exists (got ++ got'), h4, enc, part. split; trivial. now apply (scanned_app _ _ rest). Qed.
Lemma announced_more R d n : announced R n -> announced (R ++ d) n.
Proof.
  intros (got & h4 & enc & part & S & L). exists (got ++ []), h4, enc, (part ++ d). split; trivial.
  apply (scanned_app _ _ (h4 ++ enc ++ part)); trivial. rewrite <- !app_assoc. constructor.
Qed.

Lemma head_loop_spec ok : forall fuel buff s free outs, (length buff <= fuel)%nat -> blen buff <= head_cap ->
  d_list (r_big s) = [] -> d_lim (r_big s) = lim0 ->
  match head_loop cfg hash fuel ok buff s free outs with
  | BadCopy => False
  | BadHash n => two64 - head_cap <= n /\ announced buff n
  | Fine (h, s', free', outs') =>
      exists items rest, scanned buff items rest /\ outs' = outs ++ map expected items /\
        r_open s' = r_open s /\ r_ea s' = r_ea s /\ r_hf s' = r_hf s + number (damaged hash) items /\ blen h <= head_cap /\
        (refused ok rest /\ free' = true /\ d_list (r_big s') = [] \/
         r_sf s' = r_sf s + number over1 items /\ holds (with_head s' h) rest /\
         (free' = true -> free = true \/ c_hash cfg < r_hf s' \/ c_size cfg < r_sf s'))
  end.
Proof.
  induction fuel as [|f IH]; intros buff s free outs Hf Hc Hl Hlim; cbn [head_loop].
  - assert (buff = []) by (destruct buff; [trivial|cbn in Hf; lia]). subst buff.
    exists [], []. split; [constructor|]. cbn [map]. rewrite app_nil_r. repeat (split; [trivial; try (unfold number; cbn; lia)|]).
    right. split; [unfold number; cbn; lia|]. split; [|auto]. apply (holds_head (with_head s [])); trivial. left. unfold blen. cbn. lia.
  - assert (Stop : incomplete buff -> exists items rest, scanned buff items rest /\ outs = outs ++ map expected items /\
        r_open s = r_open s /\ r_ea s = r_ea s /\ r_hf s = r_hf s + number (damaged hash) items /\ blen buff <= head_cap /\
        (refused ok rest /\ free = true /\ d_list (r_big s) = [] \/
         r_sf s = r_sf s + number over1 items /\ holds (with_head s buff) rest /\
         (free = true -> free = true \/ c_hash cfg < r_hf s \/ c_size cfg < r_sf s))).
    { intros I. exists [], buff. split; [constructor|]. cbn [map]. rewrite app_nil_r. repeat (split; [trivial; try (unfold number; cbn; lia)|]).
      right. split; [unfold number; cbn; lia|]. split; [|auto]. now apply (holds_head (with_head s buff)). }
    destruct (N.leb_spec (blen buff) 4) as [L4|L4]; [apply Stop; now left|].
    destruct (read_vint (skipn 4 buff)) as [len vl] eqn:Ev.
    destruct (Nat.eqb_spec vl 0) as [V0|V0]; [apply Stop; right; left; now rewrite Ev|].
    destruct (read_split buff len vl) as (h4 & enc & area & Eb & L & Le & Re & Ea & Eh); trivial; [unfold blen in L4; lia|].
    rewrite Ea, Eh. pose proof Re as (R1 & R2 & R3).
    assert (Hb : blen buff = 4 + N.of_nat vl + blen area) by (rewrite Eb, !blen_app; unfold blen; lia).
    assert (S64 : head_cap < two64) by reflexivity.
    destruct (N.leb_spec (wrap64 (4 + N.of_nat vl + len)) (blen buff)) as [W|W].
    + destruct (N.ltb_spec (blen area) len) as [Ln|Ln].
      { destruct (N.le_gt_cases two64 (4 + N.of_nat vl + len)) as [T|T]; [|rewrite wrap64_small in W by trivial; lia].
        split; [unfold head_cap in *; lia|]. exists [], h4, enc, area. rewrite <- Eb. split; [constructor|]. auto. }
      assert (Sc : scanned buff [(bytes_word h4, firstn (N.to_nat len) area)] (skipn (N.to_nat len) area)).
      { rewrite Eb. rewrite <- (firstn_skipn (N.to_nat len) area) at 1. constructor; [trivial| |constructor].
        replace (blen (firstn (N.to_nat len) area)) with len; trivial. unfold blen in *. rewrite firstn_length. lia. }
      assert (Lp : blen (firstn (N.to_nat len) area) = len) by (unfold blen in *; rewrite firstn_length; lia).
      destruct (verdict_spec s (bytes_word h4) (firstn (N.to_nat len) area)) as (x & fr & -> & X1 & X2 & X3 & X4 & X5 & X6 & X7).
      assert (Lr : (length (skipn (N.to_nat len) area) < length buff)%nat) by (unfold blen in *; rewrite skipn_length; lia).
      specialize (IH (skipn (N.to_nat len) area) x (free || fr)%bool (outs ++ [(fst (expected (bytes_word h4, firstn (N.to_nat len) area)), firstn (N.to_nat len) area)])).
      rewrite X2 in IH. destruct (head_loop _ _ f ok _ _ _ _) as [[[[h s'] free'] outs']|n|]; [| |apply IH; trivial; unfold blen in *; lia].
      2: { destruct IH as [I1 I2]; trivial; [unfold blen in *; lia..|]. split; trivial.
           rewrite <- (app_nil_r buff). apply (announced_app _ _ _ _ _ Sc). now rewrite app_nil_r. }
      destruct IH as (items & rest & I1 & I2 & I3 & I4 & I5 & I6 & I7); trivial; [lia|unfold blen in *; lia|].
      exists ((bytes_word h4, firstn (N.to_nat len) area) :: items), rest. split.
      { rewrite Eb. rewrite <- (firstn_skipn (N.to_nat len) area) at 1. constructor; trivial. now rewrite Lp. }
      split; [rewrite I2, <- app_assoc; reflexivity|]. split; [congruence|]. split; [congruence|]. rewrite number_cons. split; [lia|]. split; [trivial|].
      destruct I7 as [I7|(I7 & I8 & I9)]; [left; trivial|right]. split; [rewrite (number_cons over1); lia|]. split; trivial.
      intros F. apply I9 in F. destruct F as [F|F]; [|auto]. apply orb_true_iff in F. destruct F as [F|F]; [auto|].
      apply X7 in F. right. lia.
    + assert (T : 4 + N.of_nat vl + len < two64).
      { destruct (N.lt_ge_cases (4 + N.of_nat vl + len) two64) as [T|T]; trivial. exfalso.
        assert (E : wrap64 (4 + N.of_nat vl + len) = 4 + N.of_nat vl + len - two64).
        { unfold wrap64. rewrite <- (N.mod_small (4 + N.of_nat vl + len - two64) two64) by (unfold head_cap in *; lia).
          rewrite <- (N.mod_add (4 + N.of_nat vl + len - two64) 1 two64) by discriminate. f_equal. lia. }
        lia. }
      rewrite wrap64_small in W by trivial. rewrite wrap64_small by lia.
      assert (Ri : forall o, (o = false \/ 0 < c_max cfg < 4 + len) -> refused o buff).
      { intros o Ho. exists h4, enc, area, len. split; trivial. split; trivial. split; trivial. split; [lia|trivial]. }
      destruct (d_push_back ok (r_big s) (repeat 0 (N.to_nat (4 + len)))) as [c m] eqn:Ep.
      unfold d_push_back in Ep. rewrite Hlim, Hl, repeat_length, N2Nat.id in Ep.
      change (number_blocked lim0) with false in Ep. cbn iota in Ep.
      assert (Sb : size_blocked lim0 (4 + len) = (0 <? c_max cfg) && (c_max cfg <? 4 + len)).
      { unfold size_blocked, lim0. cbn [limit_size cost_size]. rewrite N.add_0_l, wrap64_small by lia. reflexivity. }
      rewrite Sb in Ep. destruct ((0 <? c_max cfg) && (c_max cfg <? 4 + len)) eqn:Eb2.
      { injection Ep as <- <-. change (BUFF_LIMIT =? SUCCESS)%Z with false. cbn iota.
        apply andb_true_iff in Eb2. destruct Eb2 as [B1 B2]. apply N.ltb_lt in B1, B2.
        exists [], buff. split; [constructor|]. cbn [map]. rewrite app_nil_r. split; trivial. cbn [count r_open r_ea r_hf]. split; trivial. split; [lia|].
        split; [unfold number; cbn [filter length]; lia|]. split; [rewrite Ea || idtac; lia|]. left. split; [apply Ri; right; lia|]. auto. }
      unfold d_malloc in Ep. destruct ok.
      2: { injection Ep as <- <-. change (MALLOC =? SUCCESS)%Z with false. cbn iota.
        exists [], buff. split; [constructor|]. cbn [map]. rewrite app_nil_r. split; trivial. cbn [count r_open r_ea r_hf]. split; trivial. split; [lia|].
        split; [unfold number; cbn [filter length]; lia|]. split; [rewrite Ea || idtac; lia|]. left. split; [apply Ri; now left|]. auto. }
      apply pair_equal_spec in Ep. destruct Ep as [<- <-]. change (SUCCESS =? SUCCESS)%Z with true. cbn iota. cbn [app].
      rewrite repeat_length, N2Nat.id.
      set (z := repeat 0 (N.to_nat (4 + len))). assert (Lz : length z = N.to_nat (4 + len)) by apply repeat_length.
      assert (Lh : blen (h4 ++ area) = blen buff - N.of_nat vl) by (rewrite Hb, blen_app; unfold blen; lia).
      assert (Lh' : (length (h4 ++ area) < N.to_nat (4 + len))%nat) by (unfold blen in *; lia).
      rewrite fill_push by (cbn [d_used d_bytes]; lia). cbn [d_used d_bytes d_size].
      change (N.to_nat 0) with 0%nat. cbn [firstn app Nat.add].
      rewrite pop_one by (cbn [d_left d_used d_size]; unfold d_left; cbn [d_used d_size]; lia). cbn [snd d_used d_bytes d_size].
      exists [], buff. split; [constructor|]. cbn [map]. rewrite app_nil_r. split; trivial. split; trivial. split; trivial.
      split; [unfold number; cbn; lia|]. split; [unfold head_cap, blen; cbn; lia|]. right. split; [cbn [with_big r_sf]; unfold number; cbn; lia|]. split; [|auto].
      match goal with |- holds ?X _ => cut (holds X (h4 ++ enc ++ area)); [rewrite <- Eb; trivial|] end.
      apply holds_block with (b := {| d_size := 4 + len; d_used := 0 + (blen buff - N.of_nat vl); d_bytes := (h4 ++ area) ++ skipn (length (h4 ++ area)) z |}) (len := len);
        cbn [with_head with_big r_head r_big d_list d_lim d_size d_used d_bytes]; trivial.
      * unfold fix_limit, charge, lim0, d_left. cbn [cost_number cost_size limit_number limit_size d_size d_used].
        change (wrap64 (0 + 1)) with 1. rewrite N.add_0_l, (wrap64_small (4 + len)) by lia. rewrite (proj2 (N.leb_le _ _)) by lia.
        f_equal.
      * lia.
      * lia.
      * rewrite blen_app, Lh. unfold blen in *. rewrite skipn_length. lia.
      * lia.
      * apply andb_false_iff in Eb2. destruct Eb2 as [B|B]; apply N.ltb_ge in B; lia.
      * rewrite firstn_app. replace (N.to_nat (4 + blen area)) with (length (h4 ++ area)) by (rewrite app_length; unfold blen; lia).
        rewrite firstn_all, Nat.sub_diag, firstn_O. apply app_nil_r.
Qed.

Definition hopeless (n : N) : Prop := two64 - head_cap <= n \/ 2 ^ 31 <= n /\ (0 < c_max cfg -> n + 4 <= c_max cfg).

Lemma give_up_spec s free outs s' outs' : give_up s free outs = (s', outs') ->
  exists tail, outs' = outs ++ tail /\ (tail = [] \/ exists x, tail = [(E_INVALID_SIZE, x)]) /\
    r_ea s' = r_ea s /\ r_sf s' = r_sf s /\ r_hf s' = r_hf s /\
    (free = false -> tail = [] /\ s' = s) /\ (free = true -> r_open s' = false).
Proof.
  unfold give_up. destruct free; intros H; injection H as <- <-.
  - eexists. split; [reflexivity|]. split; [destruct (0 <? blen (r_head s)); eauto|]. repeat (split; [reflexivity|]). split; [discriminate|reflexivity].
  - exists []. rewrite app_nil_r. split; trivial. split; [auto|]. do 3 (split; trivial). split; [auto|discriminate].
Qed.

Lemma rx_data_spec s rest d ok : holds s rest -> r_open s = true -> 0 < blen d <= win_len (rx_window s) ->
  match rx_data cfg hash s d ok with
  | BadCopy => False
  | BadHash n => hopeless n /\ announced (rest ++ d) n
  | Fine (s', outs) =>
      exists items rest' tail, scanned (rest ++ d) items rest' /\ outs = map expected items ++ tail /\
        (tail = [] \/ exists x, tail = [(E_INVALID_SIZE, x)]) /\
        r_ea s' = r_ea s /\ r_hf s' = r_hf s + number (damaged hash) items /\
        (r_open s' = true -> tail = [] /\ holds s' rest') /\
        (refused ok rest' /\ r_open s' = false \/
         r_sf s' = r_sf s + number over1 items /\ (r_open s' = false -> c_hash cfg < r_hf s' \/ c_size cfg < r_sf s'))
  end.
Proof.
  intros H O L. unfold rx_data, rx_window in *. rewrite O in *. cbn [negb] in *.
  destruct H as [s H1 H2 H3 H4|s b h4 enc part len H1 H2 H3 H4 H5 H6 H7 H8 H9 H10 H11 H12].
  - rewrite H1 in *. change (@last_split dblock []) with (@None (list dblock * dblock)) in *. cbn iota in *. cbn [win_len] in L.
    pose proof (head_loop_spec ok (length (r_head s ++ d)) (r_head s ++ d) s false [] (le_n _)) as HL.
    destruct (head_loop _ _ _ _ _ _ _ _) as [[[[h s'] free] outs]|n|].
    + destruct HL as (items & rest & I1 & I2 & I3 & I4 & I5 & I6 & I7); trivial; [rewrite blen_app; lia|].
      assert (Bd : block_done cfg hash (with_head s' h) free outs = Fine (with_head s' h, free, outs)).
      { unfold block_done. destruct I7 as [(_ & _ & I7)|(_ & I7 & _)].
        - cbn [with_head r_big]. now rewrite I7.
        - inversion I7 as [x X1 X2 X3 X4 X5|x b h4 enc part len X1 X2 X3 X4 X5 X6 X7 X8 X9 X10 X11 X12 X13 X14].
          + rewrite X1. reflexivity.
          + rewrite X2. unfold d_left. rewrite X7, X8. rewrite (proj2 (N.eqb_neq _ _)) by lia. reflexivity. }
      rewrite Bd. destruct (give_up (with_head s' h) free outs) as [s2 outs2] eqn:G.
      apply give_up_spec in G. destruct G as (tail & G1 & G2 & G3 & G4 & G5 & G6 & G7). cbn [app] in I2.
      exists items, rest, tail. split; trivial. split; [now rewrite G1, I2|]. split; trivial. split; [rewrite G3; exact I4|]. split; [rewrite G5; exact I5|].
      destruct free.
      * specialize (G7 eq_refl). split; [congruence|]. destruct I7 as [(I7 & _)|(I7 & I8 & I9)]; [left; auto|right].
        split; [rewrite G4; exact I7|]. intros _. rewrite G4, G5. destruct (I9 eq_refl) as [Z|Z]; [discriminate|exact Z].
      * destruct (G6 eq_refl) as [-> ->]. destruct I7 as [(_ & Z & _)|(I7 & I8 & I9)]; [discriminate|]. split; [auto|]. right. split; trivial.
        cbn [with_head r_open]. rewrite I3, O. discriminate.
    + destruct HL as [HL1 HL2]; trivial; [rewrite blen_app; lia|]. split; [now left|trivial].
    + apply HL; trivial. rewrite blen_app. lia.
  - rewrite H2 in *. change (last_split [b]) with (Some ([] : list dblock, b)) in *. cbn iota in *.
    assert (Ld : d_left b = len - blen part) by (unfold d_left; lia).
    rewrite (proj2 (N.eqb_neq (d_left b) 0)) in * by lia. cbn [win_len] in L.
    assert (Eb : r_big s = {| d_list := [b]; d_lim := d_lim (r_big s) |}) by (destruct (r_big s) as [dl lm]; cbn [d_list d_lim] in *; now rewrite H2).
    rewrite Eb, fill_push by (unfold blen in *; lia). rewrite H8.
    set (b2 := {| d_size := d_size b; d_used := 4 + blen part; d_bytes := _ |}).
    assert (B2 : d_bytes b2 = (h4 ++ part ++ d) ++ skipn (N.to_nat (4 + blen part) + length d) (d_bytes b)).
    { unfold b2. cbn [d_bytes]. rewrite H12. now rewrite <- !app_assoc. }
    rewrite pop_one by (unfold d_left in *; cbn [b2 d_used d_size] in *; lia). cbn [snd].
    set (b3 := {| d_size := d_size b2; d_used := _; d_bytes := d_bytes b2 |}).
    unfold block_done. cbn [with_big r_big d_list].
    destruct (N.eqb_spec (d_left b3) 0) as [Z|Z]; unfold d_left in Z; cbn [b3 b2 d_size d_used] in Z.
    + assert (Lp : blen (part ++ d) = len) by (rewrite blen_app; lia).
      assert (Bp : d_bytes b2 = h4 ++ part ++ d).
      { rewrite B2, skipn_all2; [apply app_nil_r|]. unfold blen in *. lia. }
      change (d_size b3) with (d_size b). change (d_bytes b3) with (d_bytes b2). rewrite H7.
      rewrite (proj2 (N.ltb_ge (4 + len) 4)) by lia. cbn [orb]. replace (4 + len - 4) with len by lia.
      destruct (N.leb_spec (2 ^ 31) len) as [L31|L31]; [split; [right; split; [trivial|lia]|]|].
      { exists [], h4, enc, (part ++ d). split; [rewrite <- !app_assoc; constructor|auto]. }
      rewrite Bp. rewrite firstn_app, H4, firstn_all2 by lia. change (4 - 4)%nat with 0%nat. rewrite firstn_O, app_nil_r.
      rewrite skipn_app, skipn_all2 by lia. rewrite H4. change (4 - 4)%nat with 0%nat. cbn [app skipn].
      destruct (verdict_spec (with_big s {| d_list := [b3]; d_lim := fix_limit false (d_lim (r_big s)) (blen d) |}) (bytes_word h4) (part ++ d)) as (x & fr & -> & X1 & X2 & X3 & X4 & X5 & X6 & X7).
      cbn [orb app with_big r_head r_big r_open r_ea r_sf r_hf] in *.
      assert (P : snd (d_pop_front (r_big x) 0 true) = {| d_list := []; d_lim := lim0 |}).
      { assert (Lf : d_used b3 = d_size b3) by (cbn [b3 b2 d_size d_used]; lia).
        assert (Pb : d_pop_block b3 0 true = (0, None)).
        { unfold d_pop_block, d_left. rewrite Lf, N.sub_diag. change (0 <? 0) with false. cbn iota. unfold d_pop. rewrite N.add_0_r, Lf.
          rewrite (wrap64_small (d_size b3)) by (cbn [b3 b2 d_used d_size]; lia). rewrite (proj2 (N.ltb_ge (d_size b3) (d_size b3))) by lia.
          cbn [d_size d_used]. rewrite N.sub_diag. reflexivity. }
        rewrite X2. unfold d_pop_front. cbn [d_list d_lim]. rewrite Pb. unfold fix_limit, drop_one, lim0. rewrite H3. reflexivity. }
      rewrite P. destruct (give_up _ fr _) as [s2 outs2] eqn:G.
      apply give_up_spec in G. destruct G as (tail & G1 & G2 & G3 & G4 & G5 & G6 & G7). cbn [r_head r_big r_open r_ea r_sf r_hf with_big] in *.
      exists [(bytes_word h4, part ++ d)], [], tail. split.
      { replace ((h4 ++ enc ++ part) ++ d) with (h4 ++ enc ++ (part ++ d) ++ []) by (rewrite app_nil_r, <- !app_assoc; reflexivity).
        constructor; trivial; [now rewrite Lp|constructor]. }
      split; [exact G1|]. split; trivial. split; [congruence|]. split; [congruence|].
      destruct fr.
      * specialize (G7 eq_refl). split; [congruence|]. right. split; [congruence|]. intros _. rewrite G4, G5. now apply X7.
      * destruct (G6 eq_refl) as [-> ->]. split.
        -- intros _. split; trivial. rewrite <- H1, <- X1. apply (holds_head (with_big x {| d_list := []; d_lim := lim0 |})); cbn [with_big r_head r_big d_list d_lim]; trivial; rewrite X1, H1.
           ++ left. unfold blen. cbn. lia.
           ++ unfold blen, head_cap. cbn. lia.
        -- right. cbn [with_big r_sf r_open] in *. split; [congruence|]. congruence.
    + exists [], (h4 ++ enc ++ part ++ d), []. split; [rewrite <- !app_assoc; constructor|]. split; trivial. split; [auto|].
      unfold number. cbn [give_up filter length with_big r_ea r_hf r_sf r_open]. split; [trivial|]. split; [lia|]. split.
      * intros _. split; trivial. apply holds_block with (b := b3) (len := len); cbn [with_big r_head r_big d_list d_lim]; trivial.
        -- rewrite H3. unfold fix_limit, d_left. cbn [cost_size cost_number limit_number limit_size b3 b2 d_size d_used].
           rewrite (proj2 (N.leb_le _ _)) by lia. f_equal. lia.
        -- rewrite blen_app. lia.
        -- cbn [b3 b2 d_used]. rewrite blen_app. lia.
        -- cbn [b3 d_bytes]. rewrite B2. unfold blen in *. rewrite !app_length, skipn_length. lia.
        -- cbn [b3 d_bytes]. rewrite B2. rewrite firstn_app.
           replace (N.to_nat (4 + blen (part ++ d))) with (length (h4 ++ part ++ d)) by (rewrite !app_length; unfold blen; rewrite app_length; lia).
           rewrite firstn_all, Nat.sub_diag, firstn_O. now rewrite app_nil_r.
      * right. split; [lia|congruence].
Qed.

Lemma rx_closed_step s e : r_open s = false -> match e with EData d _ => 0 < blen d <= win_len (rx_window s) | _ => True end ->
  exists s', rx_step cfg hash s e = Fine (s', []) /\ r_open s' = false /\ r_ea s <= r_ea s' /\ r_sf s <= r_sf s' /\ r_hf s <= r_hf s' /\
    (r_sf s' = r_sf s + others_size [e]) /\ (r_hf s' = r_hf s + others_hash [e]) /\ (match e with EData _ _ => False | _ => True end).
Proof.
  intros O L. destruct e as [d ok| | |a b c]; cbn [rx_step].
  - unfold rx_window in L. rewrite O in L. cbn in L. lia.
  - rewrite O. exists s. cbn. repeat (split; [trivial; lia|]). trivial.
  - rewrite O. exists s. cbn. repeat (split; [trivial; lia|]). trivial.
  - eexists. split; [reflexivity|]. cbn. repeat (split; [trivial; lia|]). trivial.
Qed.
Lemma others_size_cons e es : others_size (e :: es) = others_size [e] + others_size es.
Proof. unfold others_size. cbn [fold_right]. lia. Qed.
Lemma others_hash_cons e es : others_hash (e :: es) = others_hash [e] + others_hash es.
Proof. unfold others_hash. cbn [fold_right]. lia. Qed.

Lemma rx_closed es : forall s, r_open s = false -> legal cfg hash s es ->
  exists s', rx_run cfg hash s es = Fine (s', []) /\ r_open s' = false /\ data_of es = [] /\ r_ea s <= r_ea s' /\
    r_sf s' = r_sf s + others_size es /\ r_hf s' = r_hf s + others_hash es.
Proof.
  induction es as [|e es IH]; intros s O L.
  - exists s. cbn. repeat (split; [trivial; lia|]). lia.
  - cbn [legal] in L. destruct L as [L1 L2]. destruct (rx_closed_step s e O L1) as (s1 & E & O1 & A1 & B1 & C1 & D1 & F1 & G1).
    rewrite E in L2. destruct (IH s1 O1 L2) as (s' & E' & O' & A' & B' & C' & D'). exists s'. cbn [rx_run]. rewrite E, E'.
    split; [reflexivity|]. split; trivial. rewrite others_size_cons, others_hash_cons.
    split; [unfold data_of in *; cbn [flat_map]; destruct e; [contradiction|trivial..]|]. lia.
Qed.

(** Why a connection is no longer open. *)
Definition trouble (es : list rev) (rest : bytes) : Prop := refused true rest \/ Exists (fun e => match e with EData _ false => True | _ => False end) es.
Definition final (tail : list cb) : Prop := tail = [] \/ tail = [(E_READ_FAILED, [])] \/ exists x, tail = [(E_INVALID_SIZE, x)].

Lemma rx_run_spec es : forall s rest0, holds s rest0 -> r_open s = true -> legal cfg hash s es ->
  match rx_run cfg hash s es with
  | BadCopy => False
  | BadHash n => hopeless n /\ announced (rest0 ++ data_of es) n
  | Fine (s', outs) =>
      exists items rest tail, scanned (rest0 ++ data_of es) items rest /\ outs = map expected items ++ tail /\ final tail /\
        r_hf s' = r_hf s + number (damaged hash) items + others_hash es /\
        (r_open s' = true -> tail = [] /\ holds s' rest) /\
        (trouble es rest /\ r_open s' = false \/
         r_sf s' = r_sf s + number over1 items + others_size es /\
         (r_open s' = false -> In EErr es \/ c_eagain cfg < r_ea s + agains es \/ c_hash cfg < r_hf s' \/ c_size cfg < r_sf s'))
  end.
Proof.
  induction es as [|e es IH]; intros s rest0 H O L; cbn [rx_run].
  - exists [], rest0, []. cbn [data_of flat_map]. rewrite app_nil_r. split; [constructor|]. split; trivial. split; [now left|]. unfold number. cbn.
    split; [lia|]. split; [auto|]. right. split; [lia|congruence].
  - cbn [legal] in L. destruct L as [L1 L2].
    assert (Cont : forall s1 items1 rest1, rx_step cfg hash s e = Fine (s1, map expected items1) -> holds s1 rest1 -> r_open s1 = true ->
       scanned (rest0 ++ data_of [e]) items1 rest1 -> r_hf s1 = r_hf s + number (damaged hash) items1 + others_hash [e] ->
       r_sf s1 = r_sf s + number over1 items1 + others_size [e] -> r_ea s1 = r_ea s + agains [e] ->
       match (match rx_run cfg hash s1 es with Fine (s2, o2) => Fine (s2, map expected items1 ++ o2) | BadHash n => BadHash n | BadCopy => BadCopy end) with
       | BadCopy => False
       | BadHash n => hopeless n /\ announced (rest0 ++ data_of (e :: es)) n
       | Fine (s', outs) =>
         exists items rest tail, scanned (rest0 ++ data_of (e :: es)) items rest /\ outs = map expected items ++ tail /\ final tail /\
         r_hf s' = r_hf s + number (damaged hash) items + others_hash (e :: es) /\
         (r_open s' = true -> tail = [] /\ holds s' rest) /\
         (trouble (e :: es) rest /\ r_open s' = false \/
          r_sf s' = r_sf s + number over1 items + others_size (e :: es) /\
          (r_open s' = false -> In EErr (e :: es) \/ c_eagain cfg < r_ea s + agains (e :: es) \/ c_hash cfg < r_hf s' \/ c_size cfg < r_sf s'))
       end).
    { intros s1 items1 rest1 E H1 O1 S1 A1 B1 C1. rewrite E in L2. specialize (IH s1 rest1 H1 O1 L2).
      assert (De : data_of (e :: es) = data_of [e] ++ data_of es) by (unfold data_of; cbn [flat_map]; now rewrite app_nil_r).
      destruct (rx_run cfg hash s1 es) as [[s' outs]|n|]; trivial.
      2: { destruct IH as [I1 I2]. split; trivial. rewrite De, app_assoc. now apply (announced_app _ items1 rest1). }
      destruct IH as (items & rest & tail & I1 & I2 & I3 & I4 & I5 & I6). exists (items1 ++ items), rest, tail.
      split. { change (data_of (e :: es)) with (match e with EData d _ => d | _ => [] end ++ data_of es).
               replace (match e with EData d _ => d | _ => [] end) with (data_of [e]) by (cbn; apply app_nil_r).
               rewrite app_assoc. apply (scanned_app _ _ rest1); trivial. }
      split; [rewrite I2, map_app; now rewrite app_assoc|]. split; trivial.
      rewrite !number_app, others_size_cons, others_hash_cons. split; [lia|]. split; trivial.
      destruct I6 as [(I6 & I7)|(I6 & I7)]; [left; split; trivial; destruct I6 as [I6|I6]; [now left|right; now constructor 2]|right].
      split; [lia|]. intros Z. destruct (I7 Z) as [Y|[Y|Y]]; [left; now right|right; left|auto].
      change (agains (e :: es)) with (match e with EAgain => 1 | EOther a _ _ => a | _ => 0 end + agains es). cbn [agains fold_right] in C1. lia. }
    assert (Stop : forall s1 items1 rest1 tail1, rx_step cfg hash s e = Fine (s1, map expected items1 ++ tail1) -> r_open s1 = false ->
       scanned (rest0 ++ data_of [e]) items1 rest1 -> final tail1 -> r_hf s1 = r_hf s + number (damaged hash) items1 + others_hash [e] ->
       (trouble [e] rest1 \/ r_sf s1 = r_sf s + number over1 items1 + others_size [e] /\
         (In EErr [e] \/ c_eagain cfg < r_ea s + agains [e] \/ c_hash cfg < r_hf s1 \/ c_size cfg < r_sf s1)) ->
       match (match rx_run cfg hash s1 es with Fine (s2, o2) => Fine (s2, (map expected items1 ++ tail1) ++ o2) | BadHash n => BadHash n | BadCopy => BadCopy end) with
       | BadCopy => False
       | BadHash n => hopeless n /\ announced (rest0 ++ data_of (e :: es)) n
       | Fine (s', outs) =>
         exists items rest tail, scanned (rest0 ++ data_of (e :: es)) items rest /\ outs = map expected items ++ tail /\ final tail /\
         r_hf s' = r_hf s + number (damaged hash) items + others_hash (e :: es) /\
         (r_open s' = true -> tail = [] /\ holds s' rest) /\
         (trouble (e :: es) rest /\ r_open s' = false \/
          r_sf s' = r_sf s + number over1 items + others_size (e :: es) /\
          (r_open s' = false -> In EErr (e :: es) \/ c_eagain cfg < r_ea s + agains (e :: es) \/ c_hash cfg < r_hf s' \/ c_size cfg < r_sf s'))
       end).
    { intros s1 items1 rest1 tail1 E O1 S1 F1 A1 B1. rewrite E in L2. destruct (rx_closed es s1 O1 L2) as (s' & -> & O' & D' & C1 & C2 & C3).
      exists items1, rest1, tail1. split. { change (data_of (e :: es)) with (match e with EData d _ => d | _ => [] end ++ data_of es). rewrite D'.
               replace (match e with EData d _ => d | _ => [] end) with (data_of [e]) by (cbn; apply app_nil_r). now rewrite app_nil_r. }
      rewrite app_nil_r. split; trivial. split; trivial. rewrite others_size_cons, others_hash_cons. split; [lia|]. split; [congruence|].
      destruct B1 as [B1|[B1 B2]].
      - left. split; trivial. destruct B1 as [B1|B1]; [now left|right]. inversion B1; subst; [now constructor 1|]. inversion H1.
      - right. split; [lia|]. intros _. destruct B2 as [[B2|[]]|[B2|B2]]; [left; left; trivial|right; left|right; right; lia].
        change (agains (e :: es)) with (match e with EAgain => 1 | EOther a _ _ => a | _ => 0 end + agains es). cbn [agains fold_right] in B2. lia. }
    destruct e as [d ok| | |a b c]; cbn [rx_step] in *.
    + pose proof (rx_data_spec s rest0 d ok H O L1) as D. destruct (rx_data cfg hash s d ok) as [[s1 o1]|n|]; trivial.
      2: { destruct D as [D1 D2]. split; trivial. cbn [data_of flat_map]. rewrite app_assoc. now apply announced_more. }
      destruct D as (items & rest & tail & D1 & D2 & D3 & D4 & D5 & D6 & D7).
      assert (D1' : scanned (rest0 ++ data_of [EData d ok]) items rest) by (cbn; now rewrite app_nil_r).
      destruct (r_open s1) eqn:O1.
      * destruct (D6 eq_refl) as [-> D8]. destruct D7 as [[_ D7]|[D7 _]]; [discriminate|]. rewrite app_nil_r in D2. subst o1.
        apply (Cont s1 items rest); trivial; cbn; lia.
      * subst o1. apply (Stop s1 items rest tail); trivial; [unfold final; tauto|cbn; lia|].
        destruct D7 as [[(h4 & enc & part & len & D7 & D8 & D9 & D10 & D11) _]|[D7 D8]].
        -- left. destruct D11 as [-> |D11]; [right; now constructor|]. left. exists h4, enc, part, len. auto 10.
        -- right. split; [cbn; lia|]. right. right. auto.
    + rewrite O in *. cbn [negb] in *. destruct (c_eagain cfg <? r_ea (count s 1 0 0)) eqn:E.
      * apply N.ltb_lt in E. apply (Stop _ [] rest0 []); trivial; [cbn; rewrite app_nil_r; constructor|now left|unfold number; cbn; lia|].
        right. split; [unfold number; cbn; lia|]. right. left. cbn in E |- *. lia.
      * apply (Cont (count s 1 0 0) [] rest0); trivial; try (unfold number; cbn; lia); [|cbn; rewrite app_nil_r; constructor].
        inversion H; subst; [apply (holds_head (count s 1 0 0)); trivial|]. eapply (holds_block (count s 1 0 0)); eauto.
    + rewrite O in *. cbn [negb] in *. apply (Stop _ [] rest0 [(E_READ_FAILED, [])]); trivial; [cbn; rewrite app_nil_r; constructor|right; now left|unfold number; cbn; lia|].
      right. split; [unfold number; cbn; lia|]. left. now left.
    + apply (Cont (count s a b c) [] rest0); trivial; try (unfold number; cbn; lia); [|cbn; rewrite app_nil_r; constructor].
      inversion H; subst; [apply (holds_head (count s a b c)); trivial|]. eapply (holds_block (count s a b c)); eauto.
Qed.
End P.

(** ** Streams made of well-formed frames *)
Lemma app_same_prefix {A} (a b x y : list A) : length a = length b -> a ++ x = b ++ y -> a = b /\ x = y.
Proof.
  revert b. induction a as [|u a IH]; intros [|v b] L E; cbn in *; try discriminate; [auto|]. injection E as -> E.
  destruct (IH b) as [-> ->]; auto.
Qed.
Lemma reads_unique enc enc' n n' x y : reads enc n -> reads enc' n' -> enc ++ x = enc' ++ y -> enc = enc' /\ n = n' /\ x = y.
Proof.
  intros (_ & _ & R) (_ & _ & R') E. pose proof (R x) as R1. rewrite E, R' in R1. injection R1 as <- L.
  destruct (app_same_prefix enc enc' x y) as [-> ->]; auto.
Qed.
Lemma encoding_reads v enc : v < two64 -> is_encoding v enc -> reads enc v.
Proof.
  intros Hv E. split; [|split; trivial].
  - destruct E as (L & _). pose proof (vint_len_pos v). intros ->. cbn in L. lia.
  - intros rest. rewrite (read_encoding v enc rest Hv E). now rewrite (proj1 E).
Qed.
Lemma le_word k v : little_endian k v = word_bytes k v.
Proof. revert v. induction k as [|k IH]; intros v; cbn; [trivial|]. now rewrite IH. Qed.

Lemma incomplete_frame h4 enc p ws : length h4 = 4%nat -> reads enc (blen p) -> ~ incomplete (h4 ++ enc ++ p ++ ws).
Proof.
  intros L R [H|[H|(h4' & enc' & part & len & E & L' & R' & H)]].
  - destruct R as (R & _). rewrite !blen_app in H. unfold blen in H. rewrite L in H. destruct enc; [easy|]. cbn [length] in H. lia.
  - rewrite skipn_app, skipn_all2, L, Nat.sub_diag in H by lia. cbn [app skipn] in H. destruct R as (R & _ & R2). rewrite R2 in H. cbn [snd] in H.
    destruct enc; [easy|discriminate].
  - apply app_same_prefix in E; [|lia]. destruct E as [-> E]. destruct (reads_unique _ _ _ _ _ _ R R' E) as (-> & <- & <-).
    rewrite blen_app in H. lia.
Qed.

(** A received prefix of a stream splits into the frames it contains completely. *)
Lemma scanned_stream R got rest : scanned R got rest -> forall items W fut,
  is_stream items W -> Forall (fun x => blen (snd x) < two64) items -> R ++ fut = W ->
  exists k whole next, got = firstn k items /\ (k <= length items)%nat /\
    is_stream (firstn k items) whole /\ is_stream (skipn k items) next /\ W = whole ++ next /\ R = whole ++ rest /\ rest ++ fut = next.
Proof.
  induction 1 as [R|h4 enc p ws got rest L Re S IH]; intros items W fut St Fa E.
  - exists 0%nat, [], W. cbn [firstn skipn app]. split; trivial. split; [lia|]. split; [constructor|]. auto.
  - inversion St as [X1 X2|h' p' items' w ws' Hh Fr Ss X1 X2]; [exfalso; rewrite <- X2 in E; destruct h4; [discriminate L|discriminate]|]. subst items. rewrite <- X2 in E.
    destruct Fr as (enc' & En & ->). inversion Fa as [|? ? Fa1 Fa2]. cbn [snd] in *.
    rewrite <- !app_assoc in E. apply app_same_prefix in E; [|rewrite L; reflexivity]. destruct E as [E4 E5].
    pose proof (encoding_reads _ _ Fa1 En) as Re'. destruct (reads_unique _ _ _ _ _ _ Re Re' E5) as (-> & Lp & H').
    apply app_same_prefix in H'; [|unfold blen in Lp; lia]. destruct H' as [-> H'].
    destruct (IH items' ws' fut Ss Fa2 H') as (k & whole & next & K1 & K2 & K3 & K4 & K5 & K6 & K7).
    assert (Eh : bytes_word h4 = h') by (rewrite E4, le_word; apply bytes_word_bytes; exact Hh).
    exists (Datatypes.S k), ((little_endian 4 h' ++ enc' ++ p') ++ whole), next. cbn [firstn skipn length]. rewrite K1, Eh, E4. split; trivial. split; [lia|].
    split; [constructor; trivial; now exists enc'|]. split; trivial. split; [rewrite K5; now rewrite <- !app_assoc|]. split; [rewrite K6; now rewrite <- !app_assoc|]. auto.
Qed.

Lemma next_frame items next rest fut : is_stream items next -> Forall (fun x => blen (snd x) < two64) items -> rest ++ fut = next -> incomplete rest ->
  (items = [] -> rest = []) /\
  (forall h p more, items = (h, p) :: more -> exists w ws, is_frame h p w /\ next = w ++ ws /\ blen rest < blen w).
Proof.
  intros St Fa E I. split.
  - intros ->. inversion St; subst. destruct rest; [trivial|discriminate].
  - intros h p more ->. inversion St as [|h' p' items' w ws Hh Fr Ss X1 X2]. subst h' p' items'. exists w, ws. split; trivial. split; [auto|].
    destruct (N.lt_ge_cases (blen rest) (blen w)) as [|G]; trivial. exfalso.
    destruct Fr as (enc & En & ->). inversion Fa as [|? ? Fa1 Fa2]. cbn [snd] in *. rewrite <- X2 in E.
    assert (Ex : exists R', rest = (little_endian 4 h ++ enc ++ p) ++ R').
    { exists (skipn (length (little_endian 4 h ++ enc ++ p)) rest).
      assert (X : firstn (length (little_endian 4 h ++ enc ++ p)) (rest ++ fut) = little_endian 4 h ++ enc ++ p) by (rewrite E, firstn_app, firstn_all, Nat.sub_diag, firstn_O; apply app_nil_r).
      rewrite firstn_app in X. replace (length (little_endian 4 h ++ enc ++ p) - length rest)%nat with 0%nat in X by (unfold blen in G; lia).
      rewrite firstn_O, app_nil_r in X. rewrite <- (firstn_skipn (length (little_endian 4 h ++ enc ++ p)) rest) at 1. now rewrite X. }
    destruct Ex as [R' ->]. rewrite <- !app_assoc in I. revert I. apply incomplete_frame; [reflexivity|]. apply encoding_reads; trivial.
Qed.

Lemma next_length items next h4 enc x n : is_stream items next -> Forall (fun x => blen (snd x) < two64) items -> length h4 = 4%nat -> reads enc n ->
  next = h4 ++ enc ++ x -> exists h p, In (h, p) items /\ blen p = n.
Proof.
  intros St Fa L R E. inversion St as [X1 X2|h p more w ws Hh Fr Ss X1 X2]; subst items.
  - exfalso. rewrite <- X2 in E. destruct h4; [discriminate L|discriminate].
  - exists h, p. split; [now left|]. destruct Fr as (enc' & En & ->). inversion Fa as [|? ? Fa1 Fa2]. cbn [snd] in *.
    rewrite E, <- !app_assoc in X2. apply app_same_prefix in X2; [|rewrite L; reflexivity]. destruct X2 as [_ X2].
    destruct (reads_unique _ _ _ _ _ _ (encoding_reads _ _ Fa1 En) R X2) as (_ & ? & _). trivial.
Qed.
Lemma announced_in R fut items W n : announced R n -> is_stream items W -> Forall (fun x => blen (snd x) < two64) items -> R ++ fut = W ->
  exists h p, In (h, p) items /\ blen p = n.
Proof.
  intros (got & h4 & enc & part & S & L & Re) St Fa E.
  destruct (scanned_stream _ _ _ S items W fut St Fa E) as (k & whole & next & K1 & K2 & K3 & K4 & K5 & K6 & K7).
  destruct (next_length (skipn k items) next h4 enc (part ++ fut) n) as (h & p & I & H); trivial.
  - apply Forall_forall. intros x X. rewrite Forall_forall in Fa. apply Fa. rewrite <- (firstn_skipn k items). apply in_or_app. now right.
  - rewrite <- K7. now rewrite <- !app_assoc.
  - exists h, p. split; trivial. rewrite <- (firstn_skipn k items). apply in_or_app. now right.
Qed.
