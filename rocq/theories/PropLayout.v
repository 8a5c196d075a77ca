(** Where the parts of a memory channel lie and when it can be attached: C67. *)
From Verif Require Import Base MemSpec Address Mem MemLayout.
Local Open Scope N_scope.

(** A piece of memory: first byte and length. *)
Definition piece : Type := N * N.
Definition within (a b : piece) : Prop := fst b <= fst a /\ fst a + snd a <= fst b + snd b.
Definition apart (a b : piece) : Prop := fst a + snd a <= fst b \/ fst b + snd b <= fst a.
Definition aligned (a : N) : Prop := exists k, a = 16 * k.
(** The pieces used for node [i] of a channel. *)
Definition head_piece (h : hdr) (i : N) : piece := (node_head_at h i, 8).
Definition data_piece (h : hdr) (i : N) : piece := (node_data_at h i, 256).

Lemma init_values len : least <= len -> let n := (len - 4096) / 272 in
  init_hdr len = (OK, Some {| o_magic := name; o_version := 2; o_align := 16; o_host := 8; o_size := 256; o_power := 8; o_count := n;
    o_chan := 0; o_head := 4096; o_data := 4096 + n * 16; o_end := 4096 + n * 16 + n * 256 |}).
Proof.
  intros L n. unfold init_hdr. destruct (N.ltb_spec len least); [lia|]. do 2 f_equal.
Qed.
Lemma init_count len h : init_hdr len = (OK, Some h) -> least <= len /\ 1 <= o_count h /\ o_end h <= len /\ o_chan h = 0 /\ o_head h = 4096 /\
  o_data h = 4096 + o_count h * 16 /\ o_end h = o_data h + o_count h * 256 /\ o_count h = (len - 4096) / 272.
Proof.
  intro E. assert (L : least <= len). { unfold init_hdr in E. destruct (N.ltb_spec len least); [discriminate|assumption]. }
  rewrite (init_values len L) in E. cbv zeta in E.
  match type of E with (_, Some ?r) = _ => remember r as r0 eqn:R end. injection E as <-. subst r0. cbn [o_count o_end o_chan o_head o_data]. unfold least, head_size, node_sz, nhead_size in L.
  set (n := (len - 4096) / 272). assert (N1 : 272 * n <= len - 4096) by (subst n; apply N.mul_div_le; lia).
  assert (N2 : 1 <= n) by (subst n; apply N.div_le_lower_bound; lia). unfold least, head_size, node_sz, nhead_size.
  do 7 (split; [try reflexivity; try (clearbody n; lia)|]).
  reflexivity.
Qed.

(** C67: everything a channel uses lies inside its buffer, after the header, aligned, and no
    two parts share a byte. *)
Theorem C67_layout len h : init_hdr len = (OK, Some h) ->
  1 <= o_count h /\
  (forall i, i < o_count h -> within (head_piece h i) (4096, len - 4096) /\ within (data_piece h i) (4096, len - 4096) /\
    aligned (node_head_at h i) /\ aligned (node_data_at h i)) /\
  (forall i j, i < o_count h -> j < o_count h -> apart (head_piece h i) (data_piece h j) /\
    (i <> j -> apart (head_piece h i) (head_piece h j) /\ apart (data_piece h i) (data_piece h j))) /\
  (forall i, i < o_count h -> within (node_data_at h i, node_room h i) (4096, len - 4096) /\
    within (block_data_at h i, block_room h i) (4096, len - 4096) /\
    (forall j, j < o_count h -> apart (node_data_at h i, node_room h i) (head_piece h j))).
Proof.
  intro E. destruct (init_count len h E) as (L & C1 & EL & C & H & D & EN & _). unfold least, head_size, node_sz, nhead_size in L.
  unfold head_piece, data_piece, within, apart, aligned, node_room, block_room, block_data_at, node_head_at, node_data_at, nhead_size, node_sz, block_head.
  cbn [fst snd]. rewrite C, H. set (n := o_count h) in *. set (d := o_data h) in *. set (e := o_end h) in *. clearbody n d e. split; [exact C1|].
  split; [|split].
  - intros i I. split; [lia|]. split; [lia|]. split; [exists (256 + i); lia|]. exists (256 + n + 16 * i). lia.
  - intros i j I J. split; [lia|]. intro NE. lia.
  - intros i I. split; [lia|]. split; [lia|]. intros j J. lia.
Qed.
(** The number of nodes is the one the rest of the model ([Mem.mem_init]) works with, and
    no buffer could hold one more. *)
Theorem C67_count len h c : init_hdr len = (OK, Some h) -> mem_init len = (OK, Some c) ->
  ch_n c = o_count h /\ len < 4096 + (o_count h + 1) * (16 + 256).
Proof.
  intros E M. destruct (init_count len h E) as (L & _ & _ & _ & _ & _ & _ & N1). unfold mem_init in M.
  destruct (_ <? _); [discriminate|]. injection M as <-. cbn [ch_n]. unfold node_sz. split; [now rewrite N1|].
  rewrite N1. unfold least, head_size, node_sz, nhead_size in L. pose proof (N.mul_succ_div_gt (len - 4096) 272). lia.
Qed.
Example C67_case : init_hdr 8192 = (OK, Some {| o_magic := name; o_version := 2; o_align := 16; o_host := 8; o_size := 256; o_power := 8; o_count := 15;
    o_chan := 0; o_head := 4096; o_data := 4336; o_end := 8176 |}) /\ exists c, mem_init 8192 = (OK, Some c).
Proof. split; [reflexivity|eexists; reflexivity]. Qed.

(** A buffer that was initialised can be attached; one too short for a node is refused by
    both calls. *)
Theorem C67_attach len h : init_hdr len = (OK, Some h) -> attach len h = OK.
Proof.
  intro E. destruct (init_count len h E) as (L & _). rewrite (init_values len L) in E. cbv zeta in E.
  match type of E with (_, Some ?r) = _ => remember r as r0 eqn:R end. injection E as <-. subst r0. unfold attach.
  destruct (N.ltb_spec len least); [lia|]. reflexivity.
Qed.
Theorem C67_short len h : len < 4096 + 256 + 16 -> init_hdr len = (E_SIZE_TOO_SMALL, None) /\ attach len h = E_SIZE_TOO_SMALL.
Proof. intro L. unfold init_hdr, attach. change least with (4096 + 256 + 16). destruct (N.ltb_spec len (4096 + 256 + 16)); [now split|lia]. Qed.
(** A process that stops at any point of the initialisation, after the buffer was cleared
    and before the last store, leaves a buffer that is refused. *)
Lemma attach_zero len : attach len hdr0 <> OK.
Proof. unfold attach. destruct (len <? least); [discriminate|]. cbn. discriminate. Qed.
Theorem C67_crash len len' k : (k < length (stores len))%nat -> attach len' (put hdr0 (firstn k (stores len))) <> OK.
Proof.
  intro K. assert (H : o_host (put hdr0 (firstn k (stores len))) = 0).
  { revert K. unfold stores. cbn [map combine seq app length name fst snd]. intro K.
    do 18 (destruct k as [|k]; [reflexivity|]). exfalso. cbn in K. lia. }
  unfold attach. destruct (len' <? least); [discriminate|]. destruct (negb _); [discriminate|]. destruct (negb _); [discriminate|].
  destruct (negb _); [discriminate|]. rewrite H. discriminate.
Qed.
Example C67_crash_case : (17 < length (stores 8192))%nat /\ attach 8192 (put hdr0 (firstn 17 (stores 8192))) = E_HOST_CH.
Proof. split; [cbn; lia|reflexivity]. Qed.
(** What a buffer must begin with to be accepted. *)
Theorem C67_accepts len h : attach len h = OK <->
  4096 + 256 + 16 <= len /\ prefix_nocase name (o_magic h) = true /\ o_version h = 2 /\ o_align h = 16 /\ o_host h = 8.
Proof.
  unfold attach. change least with (4096 + 256 + 16). destruct (N.ltb_spec len (4096 + 256 + 16)); [split; [discriminate|lia]|].
  destruct (prefix_nocase name (o_magic h)); cbn [negb]; [|split; [discriminate|intros (_ & X & _); discriminate]].
  destruct (N.eqb_spec (o_version h) 2); cbn [negb]; [|split; [discriminate|tauto]].
  destruct (N.eqb_spec (o_align h) align); cbn [negb]; [|split; [discriminate|unfold align in *; tauto]].
  destruct (N.eqb_spec (o_host h) 8); cbn [negb]; [|split; [discriminate|tauto]].
  split; [|reflexivity]. intros _. unfold align in *. auto.
Qed.
(** What is not so: that an attached channel fits the buffer.  The recorded sizes are not
    compared with the length: a channel made in a larger buffer is accepted, with nodes behind the
    end, ... *)
Theorem C67_larger_refuted : exists h, init_hdr 8192 = (OK, Some h) /\ attach 4608 h = OK /\
  exists i, i < o_count h /\ ~ within (data_piece h i) (4096, 4608 - 4096).
Proof.
  eexists. split; [reflexivity|]. split; [reflexivity|]. exists 14. split; [reflexivity|].
  unfold within. cbn. lia.
Qed.
(** ... and so is one without nodes, whose use divides by zero ([Mem.next_index]).  A compiler
    that moves the stores to the header (there is no fence between them) leaves such a
    buffer when the process stops. *)
Definition reordered (len : N) : list (hdr -> hdr) := skipn 7 (stores len).
Theorem C67_no_nodes_refuted : exists h, put hdr0 (reordered 8192) = h /\ attach 8192 h = OK /\ o_count h = 0.
Proof. eexists. split; [reflexivity|]. split; reflexivity. Qed.

Print Assumptions C67_layout.
Print Assumptions C67_count.
Print Assumptions C67_attach.
Print Assumptions C67_short.
Print Assumptions C67_crash.
Print Assumptions C67_accepts.
Print Assumptions C67_larger_refuted.
Print Assumptions C67_no_nodes_refuted.
