(** C03, C04, C05, C47: the block buffer. *)
From Verif Require Import Base BufferSpec Buffer BufDynProof BufStaticProof BufStaticProof2 BufStaticProof3 BufStaticProof4 BufRunProof.
Local Open Scope N_scope.

(** C03: in dynamic mode, with an allocator that succeeds, every history of calls
    has the outputs of the bounded deque. *)
Theorem C03_dynamic_deque : forall ln ls os, total_op_size os < 2 ^ 63 ->
  exists m, d_run (d_init ls ln) (map (pair true) os) = (fst (spec_run ln ls [] os), m) /\
            map abs_d (d_list m) = snd (spec_run ln ls [] os).
Proof. exact d_run_spec. Qed.
Print Assumptions C03_dynamic_deque.

(** C03 with any allocator: a failed allocation is a refused push. *)
Theorem C03_dynamic_any_allocator : forall ln ls os, total_op_size (map snd os) < 2 ^ 63 ->
  exists outs m, d_run (d_init ls ln) os = (outs, m) /\
    history ln ls MALLOC [] (map snd os) outs (map abs_d (d_list m)).
Proof. exact d_run_history. Qed.
Print Assumptions C03_dynamic_any_allocator.

(** C03: an allocation that succeeds is never reported as failed. *)
Theorem C03_dynamic_no_spurious_failure : forall ln ls os, total_op_size os < 2 ^ 63 ->
  ~ In (Code MALLOC) (fst (d_run (d_init ls ln) (map (pair true) os))).
Proof. exact d_run_no_malloc. Qed.
Print Assumptions C03_dynamic_no_spurious_failure.

(** C04: in static mode no history of calls touches memory outside the area, reads
    something that is not there or overlaps a memcpy ([s_run] is defined), and every
    history has the outputs of the bounded deque, where the ring may in addition
    refuse a push for lack of contiguous room. *)
Theorem C04_static_ring_deque : forall ms mn os,
  0 < ms < 2 ^ 60 -> (1 <= mn)%nat -> Forall (fun o => op_size o < 2 ^ 60) os ->
  exists outs m q, s_run (s_init ms mn) os = Some (outs, m) /\
    history (N.of_nat mn) ms BUFF_LIMIT [] os outs q.
Proof.
  intros ms mn os H1 H2 H3. destruct (s_run_history ms mn os H1 H2 H3) as (outs & m & l & E & H & _). eauto.
Qed.
Print Assumptions C04_static_ring_deque.

(** C04: at the end of every history the blocks of the queue lie in the area, each
    holding exactly its bytes, and no two of them (header included) overlap. *)
Theorem C04_static_blocks_disjoint : forall ms mn os outs m,
  0 < ms < 2 ^ 60 -> (1 <= mn)%nat -> Forall (fun o => op_size o < 2 ^ 60) os ->
  s_run (s_init ms mn) os = Some (outs, m) ->
  exists l : list (N * blk),
    history (N.of_nat mn) ms BUFF_LIMIT [] os outs (map snd l) /\
    (forall a x, In (a, x) l ->
       read_data (sb_mem (s_buf m)) (a + 32) (length (raw x)) = Some (raw x) /\
       a + 32 + N.of_nat (length (raw x)) <= sb_size (s_buf m)) /\
    (forall l1 a x l2 b y l3, l = l1 ++ (a, x) :: l2 ++ (b, y) :: l3 ->
       ranges_disjoint a (32 + N.of_nat (length (raw x))) b (32 + N.of_nat (length (raw y)))).
Proof. exact s_run_disjoint. Qed.
Print Assumptions C04_static_blocks_disjoint.

(** C04: the ring does not refuse what fits: when the queue is empty, whatever
    happened before, any series of pushes whose footprints fit the area (the size
    given to set_mode plus 16, rounded up to 16) and that respects the limits is
    accepted. *)
Theorem C04_static_empty_accepts : forall ms mn os outs m ds,
  0 < ms < 2 ^ 60 -> (1 <= mn)%nat -> Forall (fun o => op_size o < 2 ^ 60) os ->
  s_run (s_init ms mn) os = Some (outs, m) ->
  cost_number (s_lim m) = 0 ->
  sum_of footprint ds <= 16 * ((ms + 31) / 16) ->
  (length ds <= mn)%nat -> sum_of (fun d => N.of_nat (length d)) ds <= ms ->
  exists m', s_run m (map PushBack ds) = Some (map (fun _ => Code SUCCESS) ds, m').
Proof. exact s_empty_accepts. Qed.
Print Assumptions C04_static_empty_accepts.

(** C05: what the manager says it holds is what it holds, and that is within the
    limits; dynamic mode. *)
Theorem C05_dynamic_accounting : forall ln ls os outs m, total_op_size (map snd os) < 2 ^ 63 ->
  d_run (d_init ls ln) os = (outs, m) ->
  exists q, history ln ls MALLOC [] (map snd os) outs q /\
    cost_number (d_lim m) = N.of_nat (length q) /\ cost_size (d_lim m) = total_unread q /\
    (0 < ln -> N.of_nat (length q) <= ln) /\ (0 < ls -> total_unread q <= ls).
Proof. exact d_run_accounting. Qed.
Print Assumptions C05_dynamic_accounting.

(** C05, static mode. *)
Theorem C05_static_accounting : forall ms mn os outs m,
  0 < ms < 2 ^ 60 -> (1 <= mn)%nat -> Forall (fun o => op_size o < 2 ^ 60) os ->
  s_run (s_init ms mn) os = Some (outs, m) ->
  exists q, history (N.of_nat mn) ms BUFF_LIMIT [] os outs q /\
    cost_number (s_lim m) = N.of_nat (length q) /\ cost_size (s_lim m) = total_unread q /\
    (length q <= mn)%nat /\ total_unread q <= ms.
Proof. exact s_run_accounting. Qed.
Print Assumptions C05_static_accounting.

(** C05 without the size hypothesis is false: the limit test adds in 64 bits, so a
    request near 2^64 passes it. *)
Theorem C05_limit_check_refuted : exists l s,
  s < two64 /\ 0 < limit_size l /\ limit_size l < cost_size l + s /\ size_blocked l s = false.
Proof.
  exists {| cost_number := 1; cost_size := 32; limit_number := 8; limit_size := 1024 |}, (two64 - 32).
  vm_compute. auto.
Qed.
Print Assumptions C05_limit_check_refuted.

(** C04 in a debug build is false: a plain history trips an assert (buffer.cpp 718). *)
Theorem C04_static_asserts_refuted : exists os,
  Forall (fun o => op_size o < 2 ^ 60) os /\ s_asserts (s_init 256 4) os = Some false.
Proof.
  exists [PushBack [1; 2; 3]; PushBack [4; 5; 6]; PopFront 3 true; MergeFront [7]].
  split; [repeat constructor|vm_compute; reflexivity].
Qed.
Print Assumptions C04_static_asserts_refuted.

(** C47 is false: a static manager made for [max_size] bytes refuses a block of
    that size although it is empty. *)
Theorem C47_static_capacity_refuted : exists ms mn d m,
  N.of_nat (length d) = ms /\ (1 <= mn)%nat /\
  s_run (s_init ms mn) [PushBack d] = Some ([Code BUFF_LIMIT], m).
Proof. exists 64, 4%nat, (repeat 7 64). eexists. split; [reflexivity|]. split; [lia|]. vm_compute. reflexivity. Qed.
Print Assumptions C47_static_capacity_refuted.

(** Concrete histories. *)
Example C03_ex : fst (d_run (d_init 8 2) (map (pair true)
    [PushBack [1; 2; 3]; PushFront [4]; PushBack [5]; PopBack 1 true; Back; MergeFront [6; 6]; Front; PopFront 9 true; Front]))
  = [Code 0%Z; Code 0%Z; Code (-4)%Z; Code 0%Z; View (Some (1%nat, [2; 3])); Code 0%Z; View (Some (0%nat, [4; 6; 6])); Code 0%Z;
     View (Some (1%nat, [2; 3]))].
Proof. vm_compute. reflexivity. Qed.
Example C04_ex : option_map fst (s_run (s_init 160 3)
    [PushBack [1; 2; 3]; PushBack [4; 5]; PopFront 3 true; PushFront [9]; PushFront [8]; MergeBack [6]; Front; Back; PushBack [7]])
  = Some [Code 0%Z; Code 0%Z; Code 0%Z; Code 0%Z; Code 0%Z; Code 0%Z; View (Some (0%nat, [8])); View (Some (0%nat, [4; 5; 6])); Code (-4)%Z].
Proof. vm_compute. reflexivity. Qed.
