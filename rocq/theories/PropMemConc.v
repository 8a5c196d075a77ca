(** Properties C08 and C09: any number of concurrent senders and one receiver.

    Full statements wanted: under every schedule, the receiver gets exactly the messages
    whose send reserved space, in reservation order, once and unmodified (C08), and a
    sender that dies in the middle costs only its own message (C09).

    Both are false of the code (the [_refuted] theorems below, each with a schedule).
    What holds is proved for every schedule that satisfies [fair] (MemConcSpec.v): that
    excludes reuse of a sequence number still in use, a compare-and-swap on a write
    cursor that has gone exactly once round the ring, and giving up on a sender that is
    still running or has finished. *)
From Verif Require Import Base MemSpec Mem MemProof MemConc MemConcLib MemConcStores MemConcInv MemConcSpec MemConcProof MemConcRead MemConcLive MemConcSeq.
Local Open Scope N_scope.

Section Main.
Variables (n p timeout : N) (hash : bytes -> N).
Hypothesis Hn : 1 <= n < 2 ^ 40.
Hypothesis Hp : p + 1 <= n.
Notation reach := (reach n p timeout hash).

(** What has been received is a prefix of the messages reserved and not given up on, in
    reservation order, byte for byte; receives report only success, no data, or a buffer
    that is too small. *)
Theorem C08_delivery_partial s : reach s ->
  (exists rest, kept s = delivered s ++ rest) /\
  Forall (fun x => fst x = OK \/ fst x = E_NO_DATA \/ fst x = E_BUFF_LIMIT) (s_log s).
Proof.
  intros R. pose proof (reach_inv n p timeout hash s Hn Hp R) as V. split; [|apply V].
  unfold kept. rewrite (v_out _ _ _ _ V). apply (cons_prefix 0 (s_gw s)). apply (c_chain _ _ _ _ _ _ _ _ (v_core _ _ _ _ V)).
Qed.

(** A store of a sender lands in nodes that it has reserved, that the receiver has not
    released, that belong to no other reservation still in the ring, and that no other
    sender is filling. *)
Theorem C08_exclusive_partial s i weak s' c :
  reach s -> fair n (LW i weak) s -> step n p timeout hash (LW i weak) s = Some s' -> s_mem s' c <> s_mem s c ->
  exists o b B x, nth_error (s_ops s) i = Some o /\ writing o = Some b /\ nth_error (s_blks s) b = Some B /\ o_msg o = b_msg B /\
    b_pos B <= x < b_pos B + cost (b_msg B) /\ node_of c = x mod n /\ s_gr s <= b_pos B /\
    (forall b' B' x', nth_error (s_blks s) b' = Some B' -> b' <> b ->
       b_pos B' <= x' < b_pos B' + cost (b_msg B') -> s_gr s <= x' -> x' mod n <> x mod n) /\
    (forall j o', nth_error (s_ops s) j = Some o' -> j <> i -> writing o' <> Some b).
Proof. intros R. apply (own_write n p timeout hash). now apply (reach_inv n p timeout hash). Qed.

(** Distinct sends that reported success own distinct finished reservations of their
    messages, which the receiver has not given up on. *)
Theorem C08_success_partial s : reach s ->
  exists f : nat -> nat,
    (forall i o, nth_error (s_ops s) i = Some o -> o_pc o = WRet OK -> o_msg o <> [] ->
       exists B, nth_error (s_blks s) (f i) = Some B /\ b_msg B = o_msg o /\ b_fin B = true /\ b_skip B = false) /\
    (forall i j o o', nth_error (s_ops s) i = Some o -> nth_error (s_ops s) j = Some o' -> o_pc o = WRet OK -> o_pc o' = WRet OK ->
       o_msg o <> [] -> o_msg o' <> [] -> f i = f j -> i = j).
Proof.
  intros R. pose proof (reach_inv n p timeout hash s Hn Hp R) as V. destruct (reach_asg n p timeout hash s Hn Hp R) as (f & F1 & F2). exists f. split.
  - intros i o E Ep Em. destruct (F1 i o E) as (B & EB & MB & FB); [left; auto|]. exists B. repeat (split; trivial).
    destruct (b_skip B) eqn:Sk; trivial. apply (c_skip _ _ _ _ _ _ _ _ (v_core _ _ _ _ V) (f i) B EB) in Sk. congruence.
  - intros i j o o' E E' P P' M M'. apply (F2 i j o o'); trivial; left; auto.
Qed.

(** Nothing is invented: every reservation carries the message of some send call. *)
Theorem C08_origin_partial s : reach s -> forall B, In B (s_blks s) -> exists o, In o (s_ops s) /\ o_msg o = b_msg B.
Proof. apply (blks_sent n p timeout hash); trivial. Qed.

(** Whatever senders did and wherever they stopped, the receiver alone, given time to
    let writes time out, can always finish, and has then delivered exactly the messages
    of the finished reservations, in order: every finished message before and after a
    dead sender's is delivered, and the dead sender's is not. *)
Theorem C09_drain_partial s : reach s -> s_rd s = RIdle ->
  exists s', rrun n p timeout hash s s' /\ reach s' /\ s_rd s' = RIdle /\ s_r s' = s_w s' /\
    delivered s' = map b_msg (filter b_fin (s_blks s)).
Proof.
  intros R E. pose proof (reach_inv n p timeout hash s Hn Hp R) as V.
  destruct (drain n p timeout hash _ s V E (le_n _)) as (s' & R' & V' & E' & G' & F'). exists s'. split; trivial.
  split; [now apply (rrun_reach n p timeout hash s)|]. split; trivial. split; [rewrite (v_r _ _ _ _ V'), (v_w _ _ _ _ V'); now f_equal|].
  rewrite (end_delivered n p hash s' V' G'). exact F'.
Qed.

(** A message whose completion flag is set is never given up on; one given up on is
    never delivered as data (delivered messages are all from [kept]). *)
Theorem C09_finished_kept_partial s B : reach s -> In B (s_blks s) -> b_fin B = true -> b_skip B = false.
Proof.
  intros R HB F. pose proof (reach_inv n p timeout hash s Hn Hp R) as V. apply In_nth_error in HB. destruct HB as [b EB].
  destruct (b_skip B) eqn:Sk; trivial. apply (c_skip _ _ _ _ _ _ _ _ (v_core _ _ _ _ V) b B EB) in Sk. congruence.
Qed.

(** The receiver never stores more bytes than its caller's buffer holds: [RCopy] stores
    byte [blen acc] next, [RHash] has stored [out].  Missing for the full claim of C10:
    schedules that are not fair, where it is false ([C10_concurrent_refuted]). *)
Theorem C10_concurrent_partial s : reach s ->
  match s_rd s with
  | RCopy l size e acc ge => size <= l_cap l /\ blen acc <= size
  | RHash l out e acc ge => blen out <= l_cap l
  | _ => True
  end.
Proof.
  intros R. pose proof (v_rd _ _ _ _ (reach_inv n p timeout hash s Hn Hp R)) as V.
  destruct (s_rd s); trivial; cbn [rd_ok] in V.
  - destruct V as ((_ & Vc) & _ & B & _ & -> & _ & La & _). split; trivial. unfold blen. lia.
  - destruct V as ((_ & Vc) & _ & B & _ & -> & _). trivial.
Qed.

(** The freshness clause of [fair] holds by itself until 2^32 - 1 sequence numbers have
    been handed out. *)
Theorem C08_fresh s : reach_b n p timeout hash s -> reach s.
Proof. apply (reach_bounded n p timeout hash); trivial. Qed.
End Main.

(** ** The hypotheses are met: two senders interleaved, one of them dies *)
Definition h0 : bytes -> N := fun _ => 7.
(** Decidable form of [fair_bounded] used to exhibit runs. *)
Definition fairb (l : label) (s : st) : bool :=
  match l with
  | LSend m _ => blen m <? 2 ^ 63
  | LW i weak =>
      match nth_error (s_ops s) i with
      | None => true
      | Some o =>
          match o_pc o with
          | WFetch => s_seq s + 1 <? two32
          | WCas _ wl gw _ => gw =? s_gw s
          | WStore b _ _ _ => match nth_error (s_blks s) b with Some B => negb (b_skip B) | None => true end
          | WOr b _ _ _ => match nth_error (s_blks s) b with Some B => negb (b_skip B) | None => true end
          | _ => true
          end
      end
  | LR _ => match s_rd s with
            | RSkip l => forallb (fun B => negb ((b_pos B <=? l_grb l) && (l_grb l <? b_pos B + cost (b_msg B)) && b_fin B)) (s_blks s)
            | _ => true
            end
  | LRecv _ => true
  end.
Lemma fairb_ok n l s : fairb l s = true -> fair_bounded n l s.
Proof.
  destruct l as [m t|i w|c|now]; cbn [fairb]; unfold fair_bounded, fair; trivial.
  - apply N.ltb_lt.
  - destruct (nth_error (s_ops s) i) as [o|]; trivial. destruct (o_pc o); trivial.
    + apply N.ltb_lt.
    + intros H _ _. now apply N.eqb_eq.
    + intros H B E. rewrite E in H. now destruct (b_skip B).
    + intros H B E. rewrite E in H. now destruct (b_skip B).
  - destruct (s_rd s); trivial. rewrite forallb_forall. intros H B HB [L1 L2]. specialize (H B HB).
    rewrite (proj2 (N.leb_le _ _) L1), (proj2 (N.ltb_lt _ _) L2) in H. cbn [andb] in H. now destruct (b_fin B).
Qed.
Fixpoint fexec (n p timeout : N) (hash : bytes -> N) (ls : list label) (s : st) : option st :=
  match ls with
  | [] => Some s
  | l :: r => if fairb l s then match step n p timeout hash l s with Some s' => fexec n p timeout hash r s' | None => None end else None
  end.
Lemma fexec_reach n p timeout hash ls : forall s s', reach_b n p timeout hash s -> fexec n p timeout hash ls s = Some s' -> reach_b n p timeout hash s'.
Proof.
  induction ls as [|l ls IH]; intros s s' R H; cbn [fexec] in H; [now injection H as <-|].
  destruct (fairb l s) eqn:F; [|discriminate]. destruct (step n p timeout hash l s) as [s1|] eqn:S; [|discriminate].
  apply (IH s1); trivial. apply (reach_b_step n p timeout hash s l); trivial. now apply fairb_ok.
Qed.
Definition look_at (o : option st) : option (list bytes * list bytes * list (Z * bytes) * list (bool * bool)) :=
  match o with Some s => Some (delivered s, kept s, s_log s, map (fun B => (b_fin B, b_skip B)) (s_blks s)) | None => None end.
(** First sender reserves one node and stops after 10 of its stores; the second one
    completes; the receiver waits, times out, skips the first and delivers the second. *)
Example fair_run_exists : exists s, reach 8 0 50 h0 s /\ s_rd s = RIdle /\ delivered s = [[2; 3]] /\ kept s = [[2; 3]] /\
  map b_msg (s_blks s) = [[1]; [2; 3]] /\ map b_skip (s_blks s) = [true; false].
Proof.
  pose (ls := [LSend [1] 2; LSend [2; 3] 2] ++ repeat (LW 0 false) 14 ++ repeat (LW 1 false) 51 ++
              [LRecv 100] ++ repeat (LR 5) 5 ++ [LRecv 100] ++ repeat (LR 90) 42).
  destruct (fexec 8 0 50 h0 ls init) as [s|] eqn:E; [|exfalso; revert E; now vm_compute].
  exists s. split.
  - apply C08_fresh; [lia|lia|]. apply (fexec_reach 8 0 50 h0 ls init); trivial. constructor.
  - assert (X : look_at (Some s) = Some ([[2; 3]], [[2; 3]], [(E_NO_DATA, []); (OK, [2; 3])], [(false, true); (true, false)]) /\
      (s_rd s = RIdle /\ map b_msg (s_blks s) = [[1]; [2; 3]])).
    { revert E. vm_compute. intros [= <-]. repeat split. }
    cbn [look_at] in X. destruct X as [X [X4 X5]]. injection X as X1 X2 X3 X6. repeat (split; trivial).
    change (map b_skip (s_blks s)) with (map (fun B => snd (b_fin B, b_skip B)) (s_blks s)).
    rewrite <- (map_map (fun B => (b_fin B, b_skip B)) snd), X6. reflexivity.
Qed.
(** The exclusivity theorem's hypotheses: the 10th step of the first sender stores. *)
Example exclusive_case : exists s s', reach 8 0 50 h0 s /\ fair 8 (LW 0 false) s /\ step 8 0 50 h0 (LW 0 false) s = Some s' /\ s_mem s' (CFlag 0) <> s_mem s (CFlag 0).
Proof.
  pose (ls := [LSend [1] 2] ++ repeat (LW 0 false) 28).
  destruct (fexec 8 0 50 h0 ls init) as [s|] eqn:E; [|exfalso; revert E; now vm_compute].
  destruct (step 8 0 50 h0 (LW 0 false) s) as [s'|] eqn:E'; [|exfalso; revert E E'; vm_compute; intros [= <-]; discriminate].
  assert (R : reach_b 8 0 50 h0 s) by (apply (fexec_reach 8 0 50 h0 ls init); trivial; constructor).
  exists s, s'. split; [now apply C08_fresh; [lia|lia|]|]. split; [|split; [trivial|]].
  - cbn [fair]. destruct (nth_error (s_ops s) 0) as [o|] eqn:Eo; trivial. revert E Eo. vm_compute. intros [= <-] [= <-]. cbn.
    intros B [= <-]. reflexivity.
  - revert E E'. vm_compute. intros [= <-] [= <-]. discriminate.
Qed.

(** ** Refutations of the full statements *)
(** C08: a sender (241 bytes, two nodes of a three-node ring) is preempted between
    loading the cursors and its compare-and-swap while the others go exactly once round.
    Its reservation swallows the unread third message: all four sends return success,
    yet the receiver finds the channel empty after two messages. *)
Definition sched_aba : list label :=
  [LSend (repeat 9 241) 2] ++ repeat (LW 0 false) 3 ++
  [LSend [1] 2] ++ repeat (LW 1 false) 50 ++ [LRecv 300] ++ repeat (LR 5) 37 ++
  [LSend [2] 2] ++ repeat (LW 2 false) 50 ++ [LRecv 300] ++ repeat (LR 5) 37 ++
  [LSend [3] 2] ++ repeat (LW 3 false) 50 ++
  repeat (LW 0 false) 289 ++ [LRecv 300] ++ repeat (LR 5) 3.
Theorem C08_lap_refuted : exists ls,
  match exec 3 0 50 h0 ls init with
  | Some s => map o_pc (s_ops s) = repeat (WRet OK) 4 /\ s_log s = [(OK, [1]); (OK, [2]); (E_NO_DATA, [])] /\ s_r s = s_w s
  | None => False
  end.
Proof. exists sched_aba. vm_compute. repeat split. Qed.

(** C08, "each once": a sender is preempted just before re-checking its sequence number;
    its message is received and the node reused; it then reports a conflict to itself,
    sends again, and the message arrives twice. *)
Definition sched_dup : list label :=
  [LSend [1] 2] ++ repeat (LW 0 false) 49 ++ [LRecv 300] ++ repeat (LR 5) 37 ++
  [LSend [2] 2] ++ repeat (LW 1 false) 50 ++ [LRecv 300] ++ repeat (LR 5) 37 ++
  [LSend [3] 2] ++ repeat (LW 2 false) 50 ++ [LW 0 false] ++ [LRecv 300] ++ repeat (LR 5) 37 ++
  repeat (LW 0 false) 50 ++ [LRecv 300] ++ repeat (LR 5) 37.
Theorem C08_duplicate_refuted : exists ls,
  match exec 2 0 50 h0 ls init with
  | Some s => map o_msg (s_ops s) = [[1]; [2]; [3]] /\ map o_pc (s_ops s) = repeat (WRet OK) 3 /\ delivered s = [[1]; [2]; [3]; [1]]
  | None => False
  end.
Proof. exists sched_dup. vm_compute. repeat split. Qed.
(** ... and this run is fair, so [fair] does not hide it. *)
Theorem C08_duplicate_fair : exists s, reach 2 0 50 h0 s /\ map o_msg (s_ops s) = [[1]; [2]; [3]] /\ delivered s = [[1]; [2]; [3]; [1]].
Proof.
  destruct (fexec 2 0 50 h0 sched_dup init) as [s|] eqn:E; [|exfalso; revert E; now vm_compute].
  exists s. split; [|revert E; vm_compute; intros [= <-]; split; reflexivity].
  apply C08_fresh; [lia|lia|]. apply (fexec_reach 2 0 50 h0 sched_dup init); trivial. constructor.
Qed.

(** C09: the third sender dies right after reserving a node that still carries an old
    sequence number.  Long after, the fourth sender reserves the next node, which carries
    the same old number.  At that moment the receiver times out on the dead one and skips
    the fourth sender's node with it; the fourth send then completes with success, and
    its message is never delivered. *)
Definition sched_fast : list label :=
  [LSend (repeat 9 241) 2] ++ repeat (LW 0 false) 292 ++ [LRecv 300] ++ repeat (LR 5) 280 ++
  [LSend (repeat 8 241) 2] ++ repeat (LW 1 false) 292 ++ [LRecv 300] ++ repeat (LR 5) 280 ++
  [LSend [1] 2] ++ repeat (LW 2 false) 4 ++ [LRecv 300] ++ repeat (LR 5) 5 ++
  [LSend [2] 2] ++ repeat (LW 3 false) 4 ++ [LRecv 300] ++ repeat (LR 90) 11 ++
  repeat (LW 3 false) 46 ++ [LRecv 300] ++ repeat (LR 90) 3.
Theorem C09_live_sender_refuted : exists ls,
  match exec 4 0 50 h0 ls init with
  | Some s => nth_error (map o_msg (s_ops s)) 3 = Some [2] /\ nth_error (map o_pc (s_ops s)) 3 = Some (WRet OK) /\
              ~ In [2] (delivered s) /\ s_r s = s_w s /\ s_rd s = RIdle
  | None => False
  end.
Proof.
  exists sched_fast. vm_compute. repeat split. intros [H|[H|[]]]; discriminate.
Qed.

(** C10 with concurrent senders: the receiver gives up on a live sender, the ring comes
    round, a one-byte message passes the receiver's size check in the same node, and the
    first sender wakes up and stores its own size there.  The receiver copies 241 bytes
    into a buffer of 16. *)
Definition sched_toctou : list label :=
  [LSend (repeat 9 241) 2] ++ repeat (LW 0 false) 4 ++ [LRecv 16] ++ repeat (LR 5) 5 ++ [LRecv 16] ++ repeat (LR 90) 9 ++
  [LRecv 16] ++ repeat (LR 200) 7 ++
  [LSend [1] 2] ++ repeat (LW 1 false) 50 ++ [LRecv 16] ++ repeat (LR 205) 37 ++
  [LSend [2] 2] ++ repeat (LW 2 false) 50 ++ [LRecv 16] ++ repeat (LR 206) 16 ++
  repeat (LW 0 false) 270 ++ repeat (LR 206) 180.
Theorem C10_concurrent_refuted : exists ls,
  match exec 3 0 50 h0 ls init with
  | Some s => match s_rd s with
              | RCopy l size e acc ge => l_cap l = 16 /\ size = 241 /\ blen acc = 171
              | _ => False
              end
  | None => False
  end.
Proof. exists sched_toctou. vm_compute. repeat split. Qed.

Print Assumptions C10_concurrent_refuted.
Print Assumptions C10_concurrent_partial.
Print Assumptions C08_delivery_partial.
Print Assumptions C08_exclusive_partial.
Print Assumptions C08_success_partial.
Print Assumptions C08_origin_partial.
Print Assumptions C09_drain_partial.
Print Assumptions C09_finished_kept_partial.
Print Assumptions C08_fresh.
Print Assumptions C08_lap_refuted.
Print Assumptions C08_duplicate_refuted.
Print Assumptions C08_duplicate_fair.
Print Assumptions C09_live_sender_refuted.
