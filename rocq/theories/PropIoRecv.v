(** C11, C12, C13, C49, C50: the receiving side of the stream channel. *)
From Verif Require Import Base BufferSpec Buffer Vint VintSpec VintProof Mem MemSpec MemProof IoSpec IoRecv IoRecvSpec IoRecvProof.
Local Open Scope N_scope.
Ltac Zify.zify_post_hook ::= idtac.

Lemma init_holds cfg ea sf hf : holds cfg (rx_init cfg ea sf hf) [].
Proof. apply (holds_head cfg (rx_init cfg ea sf hf)); cbn; trivial; [left|]; unfold blen, head_cap; cbn; lia. Qed.

(** Frames the configuration has room for. *)
Definition fits (cfg : rcfg) (x : N * bytes) : Prop := blen (snd x) < 2 ^ 31 /\ (0 < c_max cfg -> 4 + blen (snd x) <= c_max cfg).

(** C12 (and the general form of C11): a stream of frames, damaged or not, arrives cut in
    any way, up to any point.  Every frame received completely, and no other, is reported
    once and in order, with the verdict it deserves and its exact payload: a damaged frame
    does not disturb its neighbours.  The tolerated number of bad frames and empty reads is
    configured, and counted over the whole channel. *)
Theorem C12_damaged_frames_isolated : forall cfg hash ea sf hf items W es fut,
  is_stream items W -> Forall (fits cfg) items ->
  legal cfg hash (rx_init cfg ea sf hf) es -> healthy es -> data_of es ++ fut = W ->
  ea + agains es <= c_eagain cfg ->
  sf + number (oversize (c_limit cfg)) items + others_size es <= c_size cfg ->
  hf + number (damaged hash) items + others_hash es <= c_hash cfg ->
  exists s k whole rest, rx_run cfg hash (rx_init cfg ea sf hf) es = Fine (s, map (expected hash (c_limit cfg)) (firstn k items)) /\
    r_open s = true /\ (k <= length items)%nat /\
    is_stream (firstn k items) whole /\ data_of es = whole ++ rest /\
    (forall h p more, skipn k items = (h, p) :: more -> exists w ws, is_frame h p w /\ rest ++ fut = w ++ ws /\ blen rest < blen w) /\
    (fut = [] -> k = length items).
Proof.
  intros cfg hash ea sf hf items W es fut St Fi Le He E A B C.
  assert (Fa : Forall (fun x => blen (snd x) < two64) items).
  { eapply Forall_impl; [|exact Fi]. intros x [X _]. change two64 with (2 ^ 64). assert (2 ^ 31 < 2 ^ 64) by reflexivity. lia. }
  pose proof (rx_run_spec cfg hash es _ [] (init_holds cfg ea sf hf) eq_refl Le) as R.
  destruct (rx_run cfg hash (rx_init cfg ea sf hf) es) as [[s outs]|n|]; [|exfalso|contradiction].
  - destruct R as (got & rest & tail & R1 & R2 & R3 & R4 & R5 & R6). cbn [app rx_init r_ea r_sf r_hf] in *.
    destruct (scanned_stream _ _ _ R1 items W fut St Fa E) as (k & whole & next & K1 & K2 & K3 & K4 & K5 & K6 & K7).
    assert (Nle : forall f : N * bytes -> bool, number f (firstn k items) <= number f items).
    { intros f. rewrite <- (firstn_skipn k items) at 2. rewrite number_app. lia. }
    assert (No : forall l, number (over1 cfg hash) l <= number (oversize (c_limit cfg)) l).
    { induction l as [|x l IH]; [unfold number; cbn; lia|]. rewrite (number_cons (over1 cfg hash)), (number_cons (oversize _)).
      unfold over1 at 1. unfold number at 1 3. cbn [filter]. destruct (damaged hash x), (oversize (c_limit cfg) x); cbn [negb andb length]; lia. }
    assert (Op : r_open s = true).
    { destruct (r_open s) eqn:Op; trivial. exfalso. destruct R6 as [[R6 _]|[R6 R7]].
      - destruct R6 as [(h4 & enc & part & len & Q1 & Q2 & Q3 & Q4 & Q5)|Q].
        + destruct Q5 as [Q5|Q5]; [discriminate|].
          destruct (announced_in (data_of es) fut items W len) as (h & p & I & L); trivial.
          { exists got, h4, enc, part. rewrite <- Q1. auto. }
          rewrite Forall_forall in Fi. destruct (Fi _ I) as [_ Fm]. cbn [snd] in Fm. lia.
        + clear - Q He. induction Q as [x l Q|x l Q IH]; inversion He; subst; [|auto]. destruct x as [d [|]| | |]; try contradiction; discriminate.
      - specialize (R7 eq_refl). rewrite K1 in R6, R4. pose proof (Nle (damaged hash)). pose proof (Nle (oversize (c_limit cfg))). pose proof (No (firstn k items)).
        destruct R7 as [R7|R7]; [|lia]. unfold healthy in He. rewrite Forall_forall in He. exact (He _ R7). }
    destruct (R5 Op) as [-> Hr]. exists s, k, whole, rest. rewrite R2, app_nil_r, K1. split; trivial. split; trivial. split; trivial. split; trivial. split; trivial.
    assert (Fs : Forall (fun x => blen (snd x) < two64) (skipn k items)).
    { apply Forall_forall. intros x X. rewrite Forall_forall in Fa. apply Fa. rewrite <- (firstn_skipn k items). apply in_or_app. now right. }
    destruct (next_frame _ _ _ _ K4 Fs K7 (holds_incomplete _ _ _ Hr)) as [N1 N2]. rewrite K7. split; trivial.
    intros ->. rewrite app_nil_r in K7. subst next. destruct (skipn k items) as [|[h p] more] eqn:Sk.
    + apply Nat.le_antisymm; trivial. pose proof (skipn_length k items) as X. rewrite Sk in X. cbn in X. lia.
    + exfalso. destruct (N2 h p more eq_refl) as (w & ws & _ & Y & Z). rewrite Y, blen_app in Z. lia.
  - destruct R as [R1 R2]. cbn [app] in R2. destruct (announced_in _ fut _ _ _ R2 St Fa E) as (h & p & I & L).
    rewrite Forall_forall in Fi. destruct (Fi _ I) as [X _]. cbn [snd] in X. unfold hopeless in R1.
    assert (2 ^ 31 < two64 - head_cap) by reflexivity. lia.
Qed.
Print Assumptions C12_damaged_frames_isolated.

(** C11: every list of messages within the limits, sent as frames, cut in any way, is
    received exactly, in order, and nothing else is reported. *)
Theorem C11_framing_round_trip : forall cfg hash ea sf hf msgs W es,
  (forall m, In m msgs -> blen m < 2 ^ 31 /\ (0 < c_max cfg -> 4 + blen m <= c_max cfg) /\ (0 < c_limit cfg -> blen m <= c_limit cfg) /\ hash m < 2 ^ 32) ->
  is_stream (map (fun m => (hash m, m)) msgs) W ->
  legal cfg hash (rx_init cfg ea sf hf) es -> healthy es -> data_of es = W ->
  ea + agains es <= c_eagain cfg -> sf + others_size es <= c_size cfg -> hf + others_hash es <= c_hash cfg ->
  exists s, rx_run cfg hash (rx_init cfg ea sf hf) es = Fine (s, map (fun m => (0%Z, m)) msgs) /\ r_open s = true.
Proof.
  intros cfg hash ea sf hf msgs W es Hm St Le He E A B C.
  assert (Nd : number (damaged hash) (map (fun m => (hash m, m)) msgs) = 0).
  { clear. induction msgs as [|m l IH]; [reflexivity|]. cbn [map]. rewrite number_cons, IH. unfold number, damaged. cbn [filter fst snd]. now rewrite N.eqb_refl. }
  assert (No : number (oversize (c_limit cfg)) (map (fun m => (hash m, m)) msgs) = 0).
  { clear - Hm. induction msgs as [|m l IH]; [reflexivity|]. cbn [map]. rewrite number_cons, IH by (intros x X; apply Hm; now right).
    unfold number, oversize. cbn [filter snd]. destruct (Hm m) as (_ & _ & H & _); [now left|].
    destruct (N.ltb_spec 0 (c_limit cfg)) as [L|L]; cbn [andb]; [|reflexivity]. rewrite (proj2 (N.ltb_ge _ _)) by auto. reflexivity. }
  destruct (C12_damaged_frames_isolated cfg hash ea sf hf (map (fun m => (hash m, m)) msgs) W es []) as (s & k & whole & rest & R1 & R2 & R3 & R4 & R5 & R6 & R7); trivial.
  - apply Forall_forall. intros x X. apply in_map_iff in X. destruct X as (m & <- & I). destruct (Hm m I) as (H1 & H2 & _). split; trivial.
  - rewrite app_nil_r. trivial.
  - lia.
  - lia.
  - exists s. split; trivial. rewrite R1, (R7 eq_refl), firstn_all. apply (f_equal (fun z => Fine (s, z))). rewrite map_map.
    apply map_ext_in. intros m I. unfold expected, damaged, oversize. cbn [fst snd]. rewrite N.eqb_refl. cbn [negb].
    destruct (Hm m I) as (_ & _ & H & _). destruct (N.ltb_spec 0 (c_limit cfg)) as [L|L]; cbn [andb]; [|reflexivity].
    rewrite (proj2 (N.ltb_ge _ _)) by auto. reflexivity.
Qed.
Print Assumptions C11_framing_round_trip.

(** C13: whatever bytes a peer sends and however they are cut, no copy leaves its block, and
    the only way to read outside the received data is a frame announcing at least
    2^64 - 3072 bytes, or at least 2^31 bytes where the configuration allows such a block. *)
Theorem C13_hostile_stream_partial : forall cfg hash ea sf hf es,
  legal cfg hash (rx_init cfg ea sf hf) es ->
  match rx_run cfg hash (rx_init cfg ea sf hf) es with
  | BadCopy => False
  | BadHash n => two64 - 3072 <= n \/ 2 ^ 31 <= n /\ (0 < c_max cfg -> n + 4 <= c_max cfg)
  | Fine _ => True
  end.
Proof.
  intros cfg hash ea sf hf es Le. pose proof (rx_run_spec cfg hash es _ [] (init_holds cfg ea sf hf) eq_refl Le) as R.
  destruct (rx_run cfg hash (rx_init cfg ea sf hf) es) as [x|n|]; trivial. apply R.
Qed.
Print Assumptions C13_hostile_stream_partial.

(** C13 in full is false: fourteen bytes from a peer, announcing 2^64 - 14 bytes, make the
    receiver hash outside its buffer (the sum of the lengths wraps to zero). *)
Theorem C13_length_wrap_refuted : exists d, forall hash,
  legal {| c_limit := 262144; c_max := 524288; c_eagain := 256; c_size := 10; c_hash := 10 |} hash
    (rx_init {| c_limit := 262144; c_max := 524288; c_eagain := 256; c_size := 10; c_hash := 10 |} 0 0 0) [EData d true] /\
  rx_run {| c_limit := 262144; c_max := 524288; c_eagain := 256; c_size := 10; c_hash := 10 |} hash
    (rx_init {| c_limit := 262144; c_max := 524288; c_eagain := 256; c_size := 10; c_hash := 10 |} 0 0 0) [EData d true] = BadHash (two64 - 14).
Proof.
  exists ([0; 0; 0; 0] ++ [129; 255; 255; 255; 255; 255; 255; 255; 255; 114]). intros hash. split; [|vm_compute; reflexivity].
  cbn [legal]. split; [vm_compute; split; [reflexivity|discriminate]|]. vm_compute. trivial.
Qed.
Print Assumptions C13_length_wrap_refuted.

(** C13: the window given to the transport always lies in the head buffer or in the block. *)
Theorem C13_window_inside : forall cfg hash ea sf hf es s outs,
  legal cfg hash (rx_init cfg ea sf hf) es -> rx_run cfg hash (rx_init cfg ea sf hf) es = Fine (s, outs) ->
  match rx_window s with
  | WNone => True
  | WHead off len => off = blen (r_head s) /\ off + len = 3072
  | WBlock off len => exists b, d_list (r_big s) = [b] /\ off = d_used b /\ off + len = blen (d_bytes b) /\ 0 < len /\ (0 < c_max cfg -> blen (d_bytes b) <= c_max cfg)
  end.
Proof.
  intros cfg hash ea sf hf es s outs Le E. pose proof (rx_run_spec cfg hash es _ [] (init_holds cfg ea sf hf) eq_refl Le) as R.
  rewrite E in R. destruct R as (got & rest & tail & _ & _ & _ & _ & R5 & _). unfold rx_window. destruct (r_open s); [|exact I].
  destruct (R5 eq_refl) as [_ H]. cbn [negb].
  inversion H as [x X1 X2 X3 X4 X5|x b h4 enc part len X1 X2 X3 X4 X5 X6 X7 X8 X9 X10 X11 X12 X13 X14].
  - rewrite X1. change (@last_split dblock []) with (@None (list dblock * dblock)). cbn iota. unfold head_cap in *. lia.
  - rewrite X2. change (last_split [b]) with (Some ([] : list dblock, b)). cbn iota.
    assert (d_left b = len - blen part) by (unfold d_left; lia). rewrite (proj2 (N.eqb_neq (d_left b) 0)) by lia. exists b. unfold d_left in *.
    split; trivial. split; trivial. lia.
Qed.
Print Assumptions C13_window_inside.

Lemma scanned_in R got rest : scanned R got rest -> forall h p, In (h, p) got ->
  exists pre h4 enc post, R = pre ++ h4 ++ enc ++ p ++ post /\ length h4 = 4%nat /\ bytes_word h4 = h.
Proof.
  induction 1 as [R|h4 enc p ws got rest L Re S IH]; intros h0 p0 I; [destruct I|]. destruct I as [I|I].
  - injection I as <- <-. exists [], h4, enc, ws. auto.
  - destruct (IH _ _ I) as (pre & h4' & enc' & post & -> & X & Y). exists (h4 ++ enc ++ p ++ pre), h4', enc', post. split; [now rewrite <- !app_assoc|auto].
Qed.
(** C13: what is delivered with success, whatever the peer sent, was in the stream behind a
    matching checksum, and is within the limit. *)
Theorem C13_delivered_genuine : forall cfg hash ea sf hf es s outs p,
  legal cfg hash (rx_init cfg ea sf hf) es -> rx_run cfg hash (rx_init cfg ea sf hf) es = Fine (s, outs) -> In (0%Z, p) outs ->
  (0 < c_limit cfg -> blen p <= c_limit cfg) /\
  exists pre h4 enc post, data_of es = pre ++ h4 ++ enc ++ p ++ post /\ length h4 = 4%nat /\ bytes_word h4 = hash p.
Proof.
  intros cfg hash ea sf hf es s outs p Le E I. pose proof (rx_run_spec cfg hash es _ [] (init_holds cfg ea sf hf) eq_refl Le) as R.
  rewrite E in R. destruct R as (got & rest & tail & R1 & R2 & R3 & _). subst outs. apply in_app_or in I. destruct I as [I|I].
  - apply in_map_iff in I. destruct I as ([h q] & X & I). unfold expected, damaged, oversize in X. cbn [fst snd] in X.
    destruct (N.eqb_spec (hash q) h) as [Eh|Eh]; cbn [negb] in X; [|discriminate].
    destruct ((0 <? c_limit cfg) && (c_limit cfg <? blen q)) eqn:Es; [discriminate|]. injection X as <-. split.
    + intros L. rewrite (proj2 (N.ltb_lt _ _) L) in Es. cbn [andb] in Es. now apply N.ltb_ge.
    + rewrite Eh. exact (scanned_in _ _ _ R1 _ _ I).
  - exfalso. destruct R3 as [->|[->|[x ->]]]; [destruct I|destruct I as [I|[]]; discriminate..].
Qed.
Print Assumptions C13_delivered_genuine.

(** C49: for every byte stream, hostile or not, how it is cut does not change what is
    reported, as long as the connection stays open. *)
Lemma scanned_det R got rest : scanned R got rest -> forall got' rest', incomplete rest -> incomplete rest' -> scanned R got' rest' -> got = got' /\ rest = rest'.
Proof.
  induction 1 as [R|h4 enc p ws got rest L Re S IH]; intros got' rest' I I' S'.
  - inversion S' as [|h4 enc p ws g r L Re S X]; subst; [auto|]. exfalso. exact (incomplete_frame _ _ _ _ L Re I).
  - inversion S' as [X|h4' enc' p' ws' g r L' Re' S2 X]; subst; [exfalso; exact (incomplete_frame _ _ _ _ L Re I')|].
    apply app_same_prefix in X; [|lia]. destruct X as [-> X]. destruct (reads_unique _ _ _ _ _ _ Re' Re X) as (-> & Lp & X2).
    apply app_same_prefix in X2; [|unfold blen in Lp; lia]. destruct X2 as [-> ->]. destruct (IH _ _ I I' S2) as [-> ->]. auto.
Qed.
Theorem C49_chunking_irrelevant : forall cfg hash ea sf hf ea' sf' hf' es es' s outs s' outs',
  legal cfg hash (rx_init cfg ea sf hf) es -> legal cfg hash (rx_init cfg ea' sf' hf') es' -> data_of es = data_of es' ->
  rx_run cfg hash (rx_init cfg ea sf hf) es = Fine (s, outs) -> rx_run cfg hash (rx_init cfg ea' sf' hf') es' = Fine (s', outs') ->
  r_open s = true -> r_open s' = true -> outs = outs'.
Proof.
  intros cfg hash ea sf hf ea' sf' hf' es es' s outs s' outs' L L' D E E' O O'.
  pose proof (rx_run_spec cfg hash es _ [] (init_holds cfg ea sf hf) eq_refl L) as R. rewrite E in R.
  pose proof (rx_run_spec cfg hash es' _ [] (init_holds cfg ea' sf' hf') eq_refl L') as R'. rewrite E' in R'.
  destruct R as (got & rest & tail & R1 & R2 & _ & _ & R5 & _). destruct R' as (got' & rest' & tail' & R1' & R2' & _ & _ & R5' & _).
  destruct (R5 O) as [-> H]. destruct (R5' O') as [-> H']. rewrite <- D in R1'.
  destruct (scanned_det _ _ _ R1 _ _ (holds_incomplete _ _ _ H) (holds_incomplete _ _ _ H') R1') as [-> _]. congruence.
Qed.
Print Assumptions C49_chunking_irrelevant.

(** C50 is false: with the default configuration, a connection on which every byte is
    received correctly is closed by the 257th empty read since the channel was created. *)
Definition default_rcfg : rcfg := {| c_limit := 262144; c_max := 524288; c_eagain := 256; c_size := 10; c_hash := 10 |}.
Theorem C50_empty_reads_refuted : exists es, forall hash,
  legal default_rcfg hash (rx_init default_rcfg 0 0 0) es /\ healthy es /\ data_of es = [] /\
  exists s, rx_run default_rcfg hash (rx_init default_rcfg 0 0 0) es = Fine (s, []) /\ r_open s = false.
Proof.
  exists (repeat EAgain 257). intros hash. split; [|split; [|split]].
  - generalize (rx_init default_rcfg 0 0 0). generalize 257%nat. induction n as [|n IH]; intros s; [exact I|]. cbn [repeat legal]. split; [exact I|].
    cbn [rx_step]. destruct (negb (r_open s)); apply IH.
  - unfold healthy. apply Forall_forall. intros x X. apply repeat_spec in X. now subst.
  - vm_compute. reflexivity.
  - eexists. split; [vm_compute; reflexivity|reflexivity].
Qed.
Print Assumptions C50_empty_reads_refuted.
(** What holds: as long as the empty reads of the channel stay within the limit, they change
    nothing.  Any run behaves as the same run without its empty reads. *)
Definition not_again (e : rev) : bool := match e with EAgain => false | _ => true end.
Definition same_run (x y : outcome (rx * list cb)) : Prop :=
  match x, y with
  | Fine (s, o), Fine (t, q) => o = q /\ r_open s = r_open t /\ r_head s = r_head t /\ r_big s = r_big t /\ r_sf s = r_sf t /\ r_hf s = r_hf t
  | BadHash n, BadHash m => n = m
  | BadCopy, BadCopy => True
  | _, _ => False
  end.
Definition set_ea (s : rx) (e : N) : rx :=
  {| r_head := r_head s; r_big := r_big s; r_open := r_open s; r_ea := e; r_sf := r_sf s; r_hf := r_hf s |}.
Definition omap {A B : Type} (f : A -> B) (x : outcome A) : outcome B := match x with Fine a => Fine (f a) | BadHash n => BadHash n | BadCopy => BadCopy end.
Section Ea.
Variables (cfg : rcfg) (hash : bytes -> N).
Lemma count_set_ea s e b c : count (set_ea s e) 0 b c = set_ea (count s 0 b c) e.
Proof. unfold count, set_ea. cbn [r_head r_big r_open r_ea r_sf r_hf]. now rewrite N.add_0_r. Qed.
Lemma verdict_ea s e h p : verdict cfg hash (set_ea s e) h p = let '(c, s', f) := verdict cfg hash s h p in (c, set_ea s' e, f).
Proof.
  unfold verdict. rewrite !count_set_ea. cbn [set_ea r_hf r_sf].
  destruct (negb _); [reflexivity|]. destruct (_ && _); reflexivity.
Qed.
Lemma head_loop_ea fuel ok : forall buff s e fr outs,
  head_loop cfg hash fuel ok buff (set_ea s e) fr outs = omap (fun '(b, s', f, o) => (b, set_ea s' e, f, o)) (head_loop cfg hash fuel ok buff s fr outs).
Proof.
  induction fuel as [|f IH]; intros buff s e fr outs; cbn [head_loop]; [reflexivity|].
  destruct (blen buff <=? 4); [reflexivity|]. destruct (read_vint (skipn 4 buff)) as [ml vl]. destruct (vl =? 0)%nat; [reflexivity|].
  destruct (wrap64 (4 + N.of_nat vl + ml) <=? blen buff).
  - destruct (blen (skipn (4 + vl) buff) <? ml); [reflexivity|]. rewrite verdict_ea.
    destruct (verdict cfg hash s (bytes_word (firstn 4 buff)) (firstn (N.to_nat ml) (skipn (4 + vl) buff))) as [[c s'] g]. apply IH.
  - cbn [set_ea r_big]. destruct (d_push_back ok (r_big s) (repeat 0 (N.to_nat (wrap64 (4 + ml))))) as [c m]. destruct (c =? SUCCESS)%Z.
    + destruct (fill m (firstn 4 buff ++ skipn (4 + vl) buff)); reflexivity.
    + change {| r_head := _; r_big := _; r_open := _; r_ea := e; r_sf := _; r_hf := _ |} with (set_ea s e). rewrite count_set_ea. reflexivity.
Qed.
Lemma block_done_ea s e f o : block_done cfg hash (set_ea s e) f o = omap (fun '(s', f', o') => (set_ea s' e, f', o')) (block_done cfg hash s f o).
Proof.
  unfold block_done. cbn [set_ea r_big]. destruct (d_list (r_big s)) as [|b l]; [reflexivity|]. destruct (d_left b =? 0); [|reflexivity].
  destruct ((d_size b <? 4) || _); [reflexivity|]. change {| r_head := _; r_big := _; r_open := _; r_ea := e; r_sf := _; r_hf := _ |} with (set_ea s e).
  rewrite verdict_ea. destruct (verdict cfg hash s (bytes_word (firstn 4 (d_bytes b))) (skipn 4 (d_bytes b))) as [[c s'] g]. reflexivity.
Qed.
Lemma give_up_ea s e f o : give_up (set_ea s e) f o = let (s', o') := give_up s f o in (set_ea s' e, o').
Proof. unfold give_up. destruct f; reflexivity. Qed.
Lemma rx_data_ea s e d ok : rx_data cfg hash (set_ea s e) d ok = omap (fun '(s', o) => (set_ea s' e, o)) (rx_data cfg hash s d ok).
Proof.
  assert (After : forall t f o, match block_done cfg hash (set_ea t e) f o with Fine (s', f', o') => Fine (give_up s' f' o') | BadHash n => BadHash n | BadCopy => BadCopy end
    = omap (fun '(s', o) => (set_ea s' e, o)) (match block_done cfg hash t f o with Fine (s', f', o') => Fine (give_up s' f' o') | BadHash n => BadHash n | BadCopy => BadCopy end)).
  { intros t f o. rewrite block_done_ea. destruct (block_done cfg hash t f o) as [[[s' f'] o']|n|]; cbn [omap]; trivial. rewrite give_up_ea. destruct (give_up s' f' o'); reflexivity. }
  unfold rx_data. change (rx_window (set_ea s e)) with (rx_window s). destruct (rx_window s).
  - reflexivity.
  - change (r_head (set_ea s e)) with (r_head s). rewrite head_loop_ea.
    destruct (head_loop cfg hash (length (r_head s ++ d)) ok (r_head s ++ d) s false []) as [[[[b s'] f] o]|n|]; cbn [omap]; trivial.
    change (with_head (set_ea s' e) b) with (set_ea (with_head s' b) e). apply After.
  - change (r_big (set_ea s e)) with (r_big s). destruct (fill (r_big s) d) as [m|]; trivial.
    change (with_big (set_ea s e) (snd (d_pop_back m (blen d) false))) with (set_ea (with_big s (snd (d_pop_back m (blen d) false))) e). apply After.
Qed.
Lemma rx_data_keeps_ea s d ok s' o : rx_data cfg hash s d ok = Fine (s', o) -> r_ea s' = r_ea s.
Proof.
  intros E. pose proof (rx_data_ea s (r_ea s) d ok) as X. assert (Y : set_ea s (r_ea s) = s) by (destruct s; reflexivity). rewrite Y, E in X. cbn [omap] in X.
  assert (Z : s' = set_ea s' (r_ea s)) by congruence. rewrite Z. reflexivity.
Qed.
Lemma empty_reads es : forall s e, r_ea s + agains es <= c_eagain cfg -> same_run (rx_run cfg hash s es) (rx_run cfg hash (set_ea s e) (filter not_again es)).
Proof.
  induction es as [|x es IH]; intros s e L; [cbn [rx_run filter same_run set_ea r_open r_head r_big r_sf r_hf]; auto 6|].
  change (agains (x :: es)) with (match x with EAgain => 1 | EOther a _ _ => a | _ => 0 end + agains es) in L. destruct x as [d ok| | |a b c]; cbn [filter not_again rx_run].
  - cbn [rx_step]. rewrite rx_data_ea. destruct (rx_data cfg hash s d ok) as [[s1 o1]|n|] eqn:E; cbn [omap same_run]; trivial.
    pose proof (rx_data_keeps_ea _ _ _ _ _ E) as K. specialize (IH s1 e). rewrite K in IH. specialize (IH ltac:(lia)).
    destruct (rx_run cfg hash s1 es) as [[s2 o2]|n|], (rx_run cfg hash (set_ea s1 e) (filter not_again es)) as [[t2 q2]|m|]; cbn [same_run] in *; trivial.
    destruct IH as [-> IH]. auto.
  - cbn [rx_step]. assert (exists s1, (if negb (r_open s) then Fine (s, []) else Fine (if c_eagain cfg <? r_ea (count s 1 0 0) then disconnect (count s 1 0 0) else count s 1 0 0, [])) = Fine (s1, [] : list cb) /\ r_ea s1 + agains es <= c_eagain cfg /\ set_ea s1 e = set_ea s e) as (s1 & -> & L1 & <-).
    { destruct (r_open s) eqn:O; cbn [negb].
      - exists (count s 1 0 0). rewrite (proj2 (N.ltb_ge _ _)) by (cbn [count r_ea]; lia). split; trivial. cbn [count r_ea]. split; [lia|].
        unfold set_ea, count. cbn [r_head r_big r_open r_sf r_hf]. now rewrite !N.add_0_r.
      - exists s. split; trivial. split; [lia|trivial]. }
    specialize (IH s1 e L1). destruct (rx_run cfg hash s1 es) as [[s2 o2]|n|]; cbn [app]; exact IH.
  - cbn [rx_step]. change (r_open (set_ea s e)) with (r_open s). destruct (negb (r_open s)).
    + specialize (IH s e ltac:(lia)). destruct (rx_run cfg hash s es) as [[s2 o2]|n|], (rx_run cfg hash (set_ea s e) (filter not_again es)) as [[t2 q2]|m|]; cbn [same_run] in *; trivial.
    + specialize (IH (disconnect s) e ltac:(cbn [disconnect r_ea]; lia)). change (disconnect (set_ea s e)) with (set_ea (disconnect s) e).
      destruct (rx_run cfg hash (disconnect s) es) as [[s2 o2]|n|], (rx_run cfg hash (set_ea (disconnect s) e) (filter not_again es)) as [[t2 q2]|m|]; cbn [same_run] in *; trivial.
      destruct IH as [-> IH]. auto.
  - cbn [rx_step]. change (count (set_ea s e) a b c) with (set_ea (count s a b c) (e + a)). specialize (IH (count s a b c) (e + a) ltac:(cbn [count r_ea]; lia)).
    destruct (rx_run cfg hash (count s a b c) es) as [[s2 o2]|n|], (rx_run cfg hash (set_ea (count s a b c) (e + a)) (filter not_again es)) as [[t2 q2]|m|]; cbn [same_run] in *; trivial.
Qed.
End Ea.
Theorem C50_empty_reads_partial : forall cfg hash s es, r_ea s + agains es <= c_eagain cfg ->
  same_run (rx_run cfg hash s es) (rx_run cfg hash s (filter not_again es)).
Proof.
  intros cfg hash s es L. pose proof (empty_reads cfg hash es s (r_ea s) L) as X.
  assert (Y : set_ea s (r_ea s) = s) by (destruct s; reflexivity). rewrite Y in X. exact X.
Qed.
Print Assumptions C50_empty_reads_partial.

(** C51: a peer that keeps sending bad frames is cut off: whatever it sends, on a connection
    that is still open the frames reported as damaged, and those reported as too large, are
    within the configured numbers. *)
Definition reported (code : Z) (outs : list cb) : N := number (fun c => Z.eqb (fst c) code) outs.
Section Cut.
Variables (cfg : rcfg) (hash : bytes -> N).
Definition within (s0 s : rx) (free : bool) (outs : list cb) : Prop :=
  r_hf s0 + reported E_BAD_DATA outs <= r_hf s /\
  (free = false -> r_sf s0 + reported E_INVALID_SIZE outs <= r_sf s /\
    (reported E_BAD_DATA outs = 0 \/ r_hf s <= c_hash cfg) /\ (reported E_INVALID_SIZE outs = 0 \/ r_sf s <= c_size cfg)).
Lemma reported_app c a b : reported c (a ++ b) = reported c a + reported c b.
Proof. apply number_app. Qed.
Lemma verdict_within s0 s h p free outs : within s0 s free outs -> r_sf s0 + reported E_INVALID_SIZE outs <= r_sf s ->
  let '(code, s', fr) := verdict cfg hash s h p in within s0 s' (free || fr) (outs ++ [(code, p)]) /\ r_sf s0 + reported E_INVALID_SIZE (outs ++ [(code, p)]) <= r_sf s'.
Proof.
  intros [W1 W2] W3. unfold verdict, within. destruct (negb (hash p =? h)); [|destruct ((0 <? c_limit cfg) && (c_limit cfg <? blen p))];
    rewrite !reported_app; unfold count; cbn [r_sf r_hf];
    repeat match goal with |- context [reported ?c [(?d, p)]] => let v := eval vm_compute in (if Z.eqb d c then 1 else 0) in change (reported c [(d, p)]) with v end.
  - split; [|lia]. split; [lia|]. intros F. apply orb_false_elim in F. destruct F as [F1 F2]. apply N.ltb_ge in F2. specialize (W2 F1). lia.
  - split; [|lia]. split; [lia|]. intros F. apply orb_false_elim in F. destruct F as [F1 F2]. apply N.ltb_ge in F2. specialize (W2 F1). lia.
  - split; [|lia]. split; [lia|]. intros F. apply orb_false_elim in F. destruct F as [F1 F2]. specialize (W2 F1). lia.
Qed.
Lemma head_loop_within s0 ok fuel : forall buff s free outs, within s0 s free outs -> r_sf s0 + reported E_INVALID_SIZE outs <= r_sf s ->
  match head_loop cfg hash fuel ok buff s free outs with Fine (_, s', free', outs') => within s0 s' free' outs' /\ r_sf s0 + reported E_INVALID_SIZE outs' <= r_sf s' | _ => True end.
Proof.
  induction fuel as [|f IH]; intros buff s free outs W V; cbn [head_loop]; [auto|].
  destruct (blen buff <=? 4); [auto|]. destruct (read_vint (skipn 4 buff)) as [ml vl]. destruct (vl =? 0)%nat; [auto|].
  destruct (wrap64 (4 + N.of_nat vl + ml) <=? blen buff).
  - destruct (blen (skipn (4 + vl) buff) <? ml); [trivial|].
    pose proof (verdict_within s0 s (bytes_word (firstn 4 buff)) (firstn (N.to_nat ml) (skipn (4 + vl) buff)) free outs W V) as X.
    destruct (verdict cfg hash s (bytes_word (firstn 4 buff)) (firstn (N.to_nat ml) (skipn (4 + vl) buff))) as [[c s'] g]. destruct X. now apply IH.
  - destruct (d_push_back ok (r_big s) (repeat 0 (N.to_nat (wrap64 (4 + ml))))) as [c m]. destruct (c =? SUCCESS)%Z.
    + destruct (fill m (firstn 4 buff ++ skipn (4 + vl) buff)); trivial. split; [exact W|exact V].
    + destruct W as [W _]. unfold within, count. cbn [r_hf r_sf]. split; [split; [lia|discriminate]|lia].
Qed.
Lemma rx_data_within s d ok s' o : rx_data cfg hash s d ok = Fine (s', o) ->
  r_hf s + reported E_BAD_DATA o <= r_hf s' /\
  (r_open s' = true -> r_open s = true /\ r_sf s + reported E_INVALID_SIZE o <= r_sf s' /\
     (reported E_BAD_DATA o = 0 \/ r_hf s' <= c_hash cfg) /\ (reported E_INVALID_SIZE o = 0 \/ r_sf s' <= c_size cfg)).
Proof.
  assert (After : forall t f o1, within s t f o1 -> r_sf s + reported E_INVALID_SIZE o1 <= r_sf t -> (r_open t = r_open s) ->
     match block_done cfg hash t f o1 with Fine (s', f', o') => Fine (give_up s' f' o') | BadHash n => BadHash n | BadCopy => BadCopy end = Fine (s', o) ->
     r_hf s + reported E_BAD_DATA o <= r_hf s' /\
     (r_open s' = true -> r_open s = true /\ r_sf s + reported E_INVALID_SIZE o <= r_sf s' /\
        (reported E_BAD_DATA o = 0 \/ r_hf s' <= c_hash cfg) /\ (reported E_INVALID_SIZE o = 0 \/ r_sf s' <= c_size cfg))).
  { intros t f o1 W V O E.
    assert (Give : forall t2 f2 o2, within s t2 f2 o2 -> r_open t2 = r_open s -> give_up t2 f2 o2 = (s', o) ->
      r_hf s + reported E_BAD_DATA o <= r_hf s' /\
      (r_open s' = true -> r_open s = true /\ r_sf s + reported E_INVALID_SIZE o <= r_sf s' /\
        (reported E_BAD_DATA o = 0 \/ r_hf s' <= c_hash cfg) /\ (reported E_INVALID_SIZE o = 0 \/ r_sf s' <= c_size cfg))).
    { intros t2 f2 o2 [W1 W2] O2 G. unfold give_up in G. destruct f2; apply pair_equal_spec in G; destruct G as [G1 G2]; subst s' o.
      - cbn [disconnect r_hf r_open]. split; [|discriminate]. rewrite reported_app.
        destruct (0 <? blen (r_head t2)); [change (reported E_BAD_DATA [(E_INVALID_SIZE, r_head t2)]) with 0|change (reported E_BAD_DATA []) with 0]; lia.
      - split; trivial. intros X. rewrite <- O2. auto. }
    unfold block_done in E. destruct (d_list (r_big t)) as [|b l].
    - apply (Give t f o1); trivial. congruence.
    - destruct (d_left b =? 0).
      + destruct ((d_size b <? 4) || _); [discriminate|].
        pose proof (verdict_within s t (bytes_word (firstn 4 (d_bytes b))) (skipn 4 (d_bytes b)) f o1 W V) as X.
        destruct (verdict cfg hash t (bytes_word (firstn 4 (d_bytes b))) (skipn 4 (d_bytes b))) as [[c t'] g] eqn:Ev. destruct X as [X1 X2].
        apply (Give (with_big t' (snd (d_pop_front (r_big t') 0 true))) (f || g)%bool (o1 ++ [(c, skipn 4 (d_bytes b))])); [exact X1| |congruence].
        change (r_open t' = r_open s). rewrite <- O. destruct (verdict_spec cfg hash t (bytes_word (firstn 4 (d_bytes b))) (skipn 4 (d_bytes b))) as (x & fr & Y & _ & _ & Y3 & _).
        rewrite Ev in Y. congruence.
      + apply (Give t f o1); trivial. congruence. }
  assert (W0 : within s s false [] /\ r_sf s + reported E_INVALID_SIZE [] <= r_sf s).
  { unfold within. change (reported E_BAD_DATA []) with 0. change (reported E_INVALID_SIZE []) with 0. lia. }
  destruct W0 as [W0 V0]. unfold rx_data. destruct (rx_window s).
  - intros E. assert (s' = s /\ o = []) as [-> ->] by (split; congruence). change (reported E_BAD_DATA []) with 0. change (reported E_INVALID_SIZE []) with 0.
    split; [lia|]. intros O. split; trivial. lia.
  - pose proof (head_loop_within s ok (length (r_head s ++ d)) (r_head s ++ d) s false [] W0 V0) as X.
    assert (Op : match head_loop cfg hash (length (r_head s ++ d)) ok (r_head s ++ d) s false [] with Fine (_, t, _, _) => r_open t = r_open s | _ => True end).
    { clear. generalize (@nil cb), false, (r_head s ++ d). intros o f l. generalize (length l). intros n. revert s l f o. induction n as [|n IH]; intros s buff f o; cbn [head_loop]; trivial.
      destruct (blen buff <=? 4); trivial. destruct (read_vint (skipn 4 buff)) as [ml vl]. destruct (vl =? 0)%nat; trivial.
      destruct (wrap64 (4 + N.of_nat vl + ml) <=? blen buff).
      - destruct (blen (skipn (4 + vl) buff) <? ml); trivial.
        destruct (verdict_spec cfg hash s (bytes_word (firstn 4 buff)) (firstn (N.to_nat ml) (skipn (4 + vl) buff))) as (x & fr & -> & _ & _ & Y3 & _). rewrite <- Y3. apply IH.
      - destruct (d_push_back ok (r_big s) (repeat 0 (N.to_nat (wrap64 (4 + ml))))) as [c m]. destruct (c =? SUCCESS)%Z; [|reflexivity].
        destruct (fill m (firstn 4 buff ++ skipn (4 + vl) buff)); trivial. }
    destruct (head_loop cfg hash (length (r_head s ++ d)) ok (r_head s ++ d) s false []) as [[[[h t] f] o1]|n|]; try discriminate.
    destruct X as [X1 X2]. intros E. exact (After (with_head t h) f o1 X1 X2 Op E).
  - destruct (fill (r_big s) d) as [m|]; [|discriminate]. intros E.
    exact (After (with_big s (snd (d_pop_back m (blen d) false))) false [] W0 V0 eq_refl E).
Qed.
End Cut.
Theorem C51_bad_peer_cut_off : forall cfg hash es s s' outs, rx_run cfg hash s es = Fine (s', outs) -> r_open s' = true ->
  (reported E_BAD_DATA outs = 0 \/ r_hf s + reported E_BAD_DATA outs <= c_hash cfg) /\
  (reported E_INVALID_SIZE outs = 0 \/ r_sf s + reported E_INVALID_SIZE outs <= c_size cfg).
Proof.
  intros cfg hash es. assert (G : forall s s' outs, rx_run cfg hash s es = Fine (s', outs) -> r_open s' = true -> r_open s = true /\
    r_hf s <= r_hf s' /\ r_sf s <= r_sf s' /\ (reported E_BAD_DATA outs = 0 \/ r_hf s + reported E_BAD_DATA outs <= c_hash cfg) /\
    (reported E_INVALID_SIZE outs = 0 \/ r_sf s + reported E_INVALID_SIZE outs <= c_size cfg)).
  2: { intros s s' outs E O. destruct (G _ _ _ E O) as (_ & _ & _ & X). exact X. }
  induction es as [|e es IH]; intros s s' outs E O; cbn [rx_run] in E.
  - assert (s' = s /\ outs = []) as [-> ->] by (split; congruence). split; trivial. split; [lia|]. split; [lia|]. split; left; reflexivity.
  - destruct (rx_step cfg hash s e) as [[s1 o1]|n|] eqn:Es; try discriminate.
    destruct (rx_run cfg hash s1 es) as [[s2 o2]|n|] eqn:Er; try discriminate. assert (s' = s2 /\ outs = o1 ++ o2) as [-> ->] by (split; congruence).
    destruct (IH _ _ _ Er O) as (O1 & A1 & A2 & A3 & A4). rewrite !reported_app.
    destruct e as [d ok| | |a b c]; cbn [rx_step] in Es.
    + destruct (rx_data_within _ _ _ _ _ _ _ Es) as [B1 B2]. destruct (B2 O1) as (B3 & B4 & B5 & B6). split; trivial. lia.
    + destruct (r_open s) eqn:O0; cbn [negb] in Es; assert (o1 = []) by congruence; subst o1; change (reported E_BAD_DATA []) with 0; change (reported E_INVALID_SIZE []) with 0.
      * destruct (c_eagain cfg <? r_ea (count s 1 0 0)) eqn:Ee; assert (X : s1 = (if c_eagain cfg <? r_ea (count s 1 0 0) then disconnect (count s 1 0 0) else count s 1 0 0)) by (rewrite Ee; congruence);
          rewrite Ee in X; subst s1; [discriminate|]. cbn [count r_hf r_sf] in *. split; trivial. lia.
      * assert (s1 = s) by congruence. subst s1. congruence.
    + destruct (r_open s) eqn:O0; cbn [negb] in Es.
      * assert (s1 = disconnect s) by congruence. subst s1. discriminate.
      * assert (s1 = s) by congruence. subst s1. congruence.
    + assert (s1 = count s a b c /\ o1 = []) as [-> ->] by (split; congruence). change (reported E_BAD_DATA []) with 0. change (reported E_INVALID_SIZE []) with 0.
      cbn [count r_open r_hf r_sf] in *. split; trivial. lia.
Qed.
Print Assumptions C51_bad_peer_cut_off.

(** ** Concrete runs *)
Definition h1 (p : bytes) : N := fold_right N.add 17 p mod 2 ^ 32.
Definition fr (h : N) (p : bytes) : bytes := little_endian 4 h ++ firstn (vint_len (blen p)) (snd (write_vint (blen p) (repeat 0 16))) ++ p.
Lemma fr_frame h p : blen p < 2 ^ 60 -> is_frame h p (fr h p).
Proof.
  intros H. assert (L : (vint_len (blen p) <= 16)%nat).
  { pose proof (vint_len_max (blen p)) as X. assert (blen p < two64) by (change two64 with (2 ^ 64); assert (2 ^ 60 < 2 ^ 64) by reflexivity; lia). specialize (X H0). lia. }
  destruct (write_vint_fits (blen p) (repeat 0 16)) as (enc & En & W); [rewrite repeat_length; trivial|]. exists enc. split; trivial. unfold fr. rewrite W. cbn [snd].
  rewrite firstn_app, <- (proj1 En), firstn_all, Nat.sub_diag, firstn_O, app_nil_r. reflexivity.
Qed.
(** Three frames, the second damaged, in chunks that cut a length field and a payload; the
    third one does not fit the head buffer. *)
Definition big : bytes := repeat 5 4000.
Definition items1 : list (N * bytes) := [(h1 [1; 2; 3], [1; 2; 3]); (9, [4]); (h1 big, big)].
Definition wire1 : bytes := fr (h1 [1; 2; 3]) [1; 2; 3] ++ fr 9 [4] ++ fr (h1 big) big ++ [].
Definition events1 : list rev :=
  [EData (firstn 4 wire1) true; EAgain; EData (firstn 11 (skipn 4 wire1)) true; EData (firstn 4 (skipn 15 wire1)) true; EData (firstn 1000 (skipn 19 wire1)) true;
   EData (firstn 2500 (skipn 1019 wire1)) true; EData (skipn 3519 wire1) true].
Example recv_case : is_stream items1 wire1 /\ Forall (fits default_rcfg) items1 /\
  legal default_rcfg h1 (rx_init default_rcfg 0 0 0) events1 /\ healthy events1 /\ data_of events1 = wire1 /\
  match rx_run default_rcfg h1 (rx_init default_rcfg 0 0 0) events1 with
  | Fine (s, outs) => outs = [(0%Z, [1; 2; 3]); (E_BAD_DATA, [4]); (0%Z, big)] /\ r_open s = true
  | _ => False
  end.
Proof.
  split; [|split; [|split; [|split; [|split]]]].
  - unfold items1, wire1. constructor; [reflexivity|apply fr_frame; reflexivity|]. constructor; [reflexivity|apply fr_frame; reflexivity|].
    constructor; [vm_compute; reflexivity|apply fr_frame; vm_compute; reflexivity|constructor].
  - repeat constructor; cbn [snd]; vm_compute; try reflexivity; intros _; discriminate.
  - vm_compute. repeat first [exact I|reflexivity|discriminate|split].
  - vm_compute. repeat constructor.
  - vm_compute. reflexivity.
  - vm_compute. split; reflexivity.
Qed.
