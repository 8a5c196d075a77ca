(** C06, C07, C10: memory channels. *)
From Verif Require Import Base MemSpec Mem MemProof MemAnyProof.
Local Open Scope N_scope.

Definition op_of (o : cop) : mop := match o with CSend m => Send m | CRecv _ cap => Recv cap end.

Section Hash.
Variable hash : bytes -> N.

(** A channel created in [len] bytes, driven by any history of sends and receives,
    answers exactly like a bounded queue of [(len-4096)/272] nodes: same codes, same
    bytes, same sizes.  [len] below 2^48 and messages below 2^63 bytes. *)
Theorem C06_C07_bounded_queue : forall len c os,
  mem_init len = (OK, Some c) -> len < 2 ^ 48 -> (forall m, In (CSend m) os -> blen m < 2 ^ 63) ->
  let n := (len - 4096) / 272 in
  exists c', chan_run hash c os = Some (fst (queue_run n (default_protect n) [] (map op_of os)), c').
Proof.
  intros len c os Hi Hl Hm n. destruct (init_inv hash len c Hi Hl) as (I & En & Ep).
  destruct (chan_run_spec hash os c [] I Hm) as (c' & E & _). exists c'. rewrite E, En, Ep. reflexivity.
Qed.

(** C06 in the observer's terms: what has been received is a prefix of what has been
    accepted: nothing lost, duplicated, reordered or altered. *)
Theorem C06_fifo : forall len c os xs c',
  mem_init len = (OK, Some c) -> len < 2 ^ 48 -> (forall m, In (CSend m) os -> blen m < 2 ^ 63) ->
  chan_run hash c os = Some (xs, c') ->
  exists pending, accepted (map op_of os) xs = received xs ++ pending /\
    (forall clk cap, exists b sz c'', mem_recv hash c' clk cap =
        match pending with
        | [] => Done E_NO_DATA [] None c''
        | m :: _ => Done (if cap <? blen m then E_BUFF_LIMIT else OK) b sz c''
        end /\ (forall m r, pending = m :: r -> sz = Some (blen m) /\ b = if cap <? blen m then [] else m)).
Proof.
  intros len c os xs c' Hi Hl Hm E. destruct (init_inv hash len c Hi Hl) as (I & En & Ep).
  destruct (chan_run_spec hash os c [] I Hm) as (c2 & E2 & I2 & En2 & Ep2). rewrite E in E2. injection E2 as -> ->.
  pose proof (queue_fifo (ch_n c) (ch_p c) (map op_of os) []) as Q. change (map _ os) with (map op_of os) in *.
  destruct (queue_run (ch_n c) (ch_p c) [] (map op_of os)) as [xs q]. cbn [fst snd app] in *. exists q. split; [exact Q|].
  intros clk cap. destruct (mem_recv_spec hash c2 q clk cap I2) as (c3 & E3 & _). destruct q as [|m q].
  - exists [], None, c3. rewrite E3. split; [reflexivity|discriminate].
  - exists (if cap <? blen m then [] else m), (Some (blen m)), c3. rewrite E3. split.
    + cbn. now destruct (cap <? blen m).
    + intros m' r [= -> ->]. split; reflexivity.
Qed.

(** C07: acceptance is exactly a matter of free nodes; a refused send changes nothing
    an observer can see; an empty channel has its whole capacity back. *)
Theorem C07_capacity : forall len c os xs c' m,
  mem_init len = (OK, Some c) -> len < 2 ^ 48 -> (forall m, In (CSend m) os -> blen m < 2 ^ 63) -> 1 <= blen m < 2 ^ 63 ->
  chan_run hash c os = Some (xs, c') ->
  let n := (len - 4096) / 272 in
  exists pending, accepted (map op_of os) xs = received xs ++ pending /\
  let fits := used pending + cost m + default_protect n + 1 <=? n in
  fst (mem_send hash c' m) = (if fits then OK else E_BUFF_LIMIT) /\
  (fits = false -> forall more, (forall m, In (CSend m) more -> blen m < 2 ^ 63) ->
     option_map fst (chan_run hash (snd (mem_send hash c' m)) more) = option_map fst (chan_run hash c' more)).
Proof.
  intros len c os xs c' m Hi Hl Hm Hb E n. destruct (init_inv hash len c Hi Hl) as (I & En & Ep). fold n in En, Ep.
  destruct (chan_run_spec hash os c [] I Hm) as (c2 & E2 & I2 & En2 & Ep2). rewrite E in E2. injection E2 as -> ->.
  pose proof (queue_fifo (ch_n c) (ch_p c) (map op_of os) []) as Q. change (map _ os) with (map op_of os) in *.
  destruct (queue_run (ch_n c) (ch_p c) [] (map op_of os)) as [xs q] eqn:Eq. cbn [fst snd app] in *. exists q. split; [exact Q|].
  destruct (mem_send_spec hash c2 q m I2 ltac:(lia)) as (c3 & E3 & I3 & En3 & Ep3).
  rewrite En in En2. rewrite Ep in Ep2. rewrite En2 in En3. rewrite Ep2 in Ep3. rewrite E3. rewrite En2, Ep2 in *. cbn [queue_step fst snd] in *.
  assert (Z : blen m =? 0 = false) by (apply N.eqb_neq; lia). rewrite Z in *.
  cbv zeta. destruct (used q + cost m + default_protect n + 1 <=? n) eqn:F; cbn [fst snd] in *; split; trivial; [discriminate|].
  intros _ more Hmore. destruct (chan_run_spec hash more c3 q I3 Hmore) as (c4 & -> & _).
  destruct (chan_run_spec hash more c2 q I2 Hmore) as (c5 & -> & _). cbn. now rewrite En2, Ep2, En3, Ep3.
Qed.

(** C10: receiving from memory with any content whatsoever (node heads, block heads,
    data, timers, cursors): the bytes written never exceed the caller's buffer, and a
    successful receive returns exactly a stored block whose announced size is within
    the buffer and whose stored checksum is that of the returned bytes. *)
Theorem C10_recv_checked : forall fuel c clk cap code b size c',
  0 < ch_n c -> mem_recv_fuel hash fuel c clk cap = Done code b size c' ->
  blen b <= cap /\
  (code = OK -> 1 <= blen b /\ size = Some (blen b) /\
     exists i, i < ch_n c /\ read_word (ch_data c) (256 * i) = blen b /\ read_word (ch_data c) (256 * i + 8) = hash b mod 2 ^ 64 /\
       forall j, j < blen b -> nth (N.to_nat j) b 0 = ch_data c ((256 * i + (16 + j)) mod (256 * ch_n c))).
Proof.
  intros fuel c clk cap code b size c' Hn E. pose proof (recv_any hash fuel c clk cap Hn) as R. rewrite E in R.
  destruct R as (R1 & _ & _ & _ & _ & _ & R2). exact (conj R1 R2).
Qed.
(** With both cursors inside the node array, whatever the rest of the memory holds,
    receiving always comes back, moves only the read cursor and leaves it inside. *)
Theorem C10_recv_returns : forall c clk cap,
  ch_r c < ch_n c -> ch_w c < ch_n c ->
  exists code b size c', mem_recv hash c clk cap = Done code b size c' /\
    ch_r c' < ch_n c' /\ ch_w c' = ch_w c /\ ch_n c' = ch_n c /\ ch_data c' = ch_data c.
Proof.
  intros c clk cap Hr Hw. destruct (recv_any_ends hash c clk cap Hr Hw) as (code & b & size & c' & E).
  exists code, b, size, c'. split; trivial. pose proof (recv_any hash (S (N.to_nat (ch_n c))) c clk cap ltac:(lia)) as R.
  unfold mem_recv in E. rewrite E in R. destruct R as (_ & R1 & R2 & _ & R3 & R4 & _). rewrite R2. auto.
Qed.
(** The cursors themselves are not validated: a write cursor outside the array makes
    a receive spin for ever. *)
Theorem C10_cursor_refuted : exists c clk,
  0 < ch_n c /\ ch_r c < ch_n c /\ forall fuel cap, mem_recv_fuel hash fuel c clk cap = Unfinished.
Proof.
  exists lost_chan, (fun _ => 100). split; [reflexivity|]. split; [reflexivity|]. intros. apply lost_forever.
Qed.
End Hash.
Print Assumptions C06_C07_bounded_queue.
Print Assumptions C06_fifo.
Print Assumptions C07_capacity.
Print Assumptions C10_recv_checked.
Print Assumptions C10_recv_returns.
Print Assumptions C10_cursor_refuted.

(** Examples: a channel of three nodes; messages that wrap around the end. *)
Definition sum_hash (m : bytes) : N := fold_right N.add 7 m.
Definition msg (v : N) (k : nat) : bytes := repeat v k.
Definition demo_ops : list cop :=
  [CRecv (fun _ => 1) 100; CSend (msg 5 300); CSend (msg 6 10); CRecv (fun _ => 1) 10; CRecv (fun _ => 1) 1000;
   CSend (msg 8 400); CSend []; CRecv (fun _ => 1) 1000; CSend (msg 9 497)].
Definition demo_run : option (list mout) :=
  match mem_init (4096 + 3 * 272) with
  | (_, Some c) => option_map fst (chan_run sum_hash c demo_ops)
  | _ => None
  end.
Example C06_C07_C10_example : demo_run =
  Some [Got E_NO_DATA [] None; Sent OK; Sent E_BUFF_LIMIT; Got E_BUFF_LIMIT [] (Some 300); Got OK (msg 5 300) (Some 300);
        Sent OK; Sent OK; Got OK (msg 8 400) (Some 400); Sent E_BUFF_LIMIT].
Proof. vm_compute. reflexivity. Qed.
Example C06_C07_hypotheses : exists c, mem_init (4096 + 3 * 272) = (OK, Some c) /\ 4096 + 3 * 272 < 2 ^ 48 /\
  (forall m, In (CSend m) demo_ops -> blen m < 2 ^ 63).
Proof.
  eexists. split; [reflexivity|]. split; [reflexivity|]. intros m H. cbn [demo_ops In] in H.
  repeat (destruct H as [H|H]; [try discriminate H; injection H as <-; vm_compute; reflexivity|]). destruct H.
Qed.
