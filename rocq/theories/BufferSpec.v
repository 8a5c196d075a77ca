(** Specification of the buffer manager: a bounded double-ended queue of byte
    blocks.  No reference to the implementation. *)
From Verif Require Import Base.
Local Open Scope N_scope.

(** A block: all bytes it holds and how many of them were already popped. *)
Record blk := { raw : bytes; used : nat }.
Definition unread (b : blk) : N := N.of_nat (length (raw b)) - N.of_nat (used b).
Definition visible (b : blk) : bytes := skipn (used b) (raw b).

Definition total_unread (q : list blk) : N := fold_right (fun b n => unread b + n) 0 q.

(** Public operations.  [PushBack d] stands for a push of [length d] bytes followed
    by the caller filling the returned memory with [d]; likewise the others. *)
Inductive bop :=
| PushBack (d : bytes) | PushFront (d : bytes)
| MergeBack (d : bytes) | MergeFront (d : bytes)
| PopBack (s : N) (fr : bool) | PopFront (s : N) (fr : bool)
| Front | Back.

Inductive bout :=
| Code (c : Z)                        (* return code *)
| View (o : option (nat * bytes)).    (* front()/back(): popped count, unread bytes *)

Definition SUCCESS : Z := 0%Z.
Definition NO_DATA : Z := (-3)%Z.
Definition BUFF_LIMIT : Z := (-4)%Z.
Definition MALLOC : Z := (-5)%Z.

Definition over_number (ln : N) (q : list blk) : bool := (0 <? ln) && (ln <=? N.of_nat (length q)).
Definition over_size (ls : N) (q : list blk) (d : bytes) : bool :=
  (0 <? ls) && (ls <? total_unread q + N.of_nat (length d)).

Definition last_split {A} (l : list A) : option (list A * A) :=
  match rev l with [] => None | x :: r => Some (rev r, x) end.

Definition pop_blk (s : N) (fr : bool) (b : blk) : list blk :=
  let b' := {| raw := raw b; used := used b + N.to_nat (N.min s (unread b)) |} in
  if fr && (unread b' =? 0) then [] else [b'].

(** One operation on the queue [q] under the limits [ln] (number) and [ls] (bytes),
    0 meaning no limit. *)
Definition spec_step (ln ls : N) (q : list blk) (o : bop) : bout * list blk :=
  let pushable d := negb (over_number ln q) && negb (over_size ls q d) in
  let fresh d := {| raw := d; used := 0 |} in
  let grow b d := {| raw := raw b ++ d; used := used b |} in
  match o with
  | PushBack d => if pushable d then (Code SUCCESS, q ++ [fresh d]) else (Code BUFF_LIMIT, q)
  | PushFront d => if pushable d then (Code SUCCESS, fresh d :: q) else (Code BUFF_LIMIT, q)
  | MergeBack d =>
      match last_split q with
      | None => if pushable d then (Code SUCCESS, [fresh d]) else (Code BUFF_LIMIT, q)
      | Some (r, b) => if over_size ls q d then (Code BUFF_LIMIT, q) else (Code SUCCESS, r ++ [grow b d])
      end
  | MergeFront d =>
      match q with
      | [] => if pushable d then (Code SUCCESS, [fresh d]) else (Code BUFF_LIMIT, q)
      | b :: r => if over_size ls q d then (Code BUFF_LIMIT, q) else (Code SUCCESS, grow b d :: r)
      end
  | PopBack s fr =>
      match last_split q with
      | None => (Code NO_DATA, q)
      | Some (r, b) => (Code SUCCESS, r ++ pop_blk s fr b)
      end
  | PopFront s fr =>
      match q with
      | [] => (Code NO_DATA, q)
      | b :: r => (Code SUCCESS, pop_blk s fr b ++ r)
      end
  | Front => (View (match q with [] => None | b :: _ => Some (used b, visible b) end), q)
  | Back => (View (match last_split q with None => None | Some (_, b) => Some (used b, visible b) end), q)
  end.

Fixpoint spec_run (ln ls : N) (q : list blk) (os : list bop) : list bout * list blk :=
  match os with
  | [] => ([], q)
  | o :: r => let (b, q1) := spec_step ln ls q o in
              let (bs, q2) := spec_run ln ls q1 r in (b :: bs, q2)
  end.

Definition is_push (o : bop) : bool :=
  match o with PushBack _ | PushFront _ | MergeBack _ | MergeFront _ => true | _ => false end.

Definition op_size (o : bop) : N :=
  match o with
  | PushBack d | PushFront d | MergeBack d | MergeFront d => N.of_nat (length d)
  | _ => 0
  end.

(** A history of calls: every call behaves as [spec_step], except that a push or
    merge may be refused with code [c], which leaves the queue as it was. *)
Inductive history (ln ls : N) (c : Z) : list blk -> list bop -> list bout -> list blk -> Prop :=
| history_nil q : history ln ls c q [] [] q
| history_step q o os out outs q1 q2 :
    spec_step ln ls q o = (out, q1) -> history ln ls c q1 os outs q2 ->
    history ln ls c q (o :: os) (out :: outs) q2
| history_refuse q o os outs q2 :
    is_push o = true -> history ln ls c q os outs q2 ->
    history ln ls c q (o :: os) (Code c :: outs) q2.

Definition total_op_size (os : list bop) : N := fold_right (fun o n => op_size o + 1 + n) 0 os.

(** Two byte ranges [a, a+n) and [b, b+k) do not meet. *)
Definition ranges_disjoint (a n b k : N) : Prop := a + n <= b \/ b + k <= a.

(** Room a block takes in the ring: a 32 byte header and the bytes rounded up to 16. *)
Definition footprint (d : bytes) : N := 32 + 16 * ((N.of_nat (length d) + 15) / 16).
Definition sum_of (f : bytes -> N) (ds : list bytes) : N := fold_right (fun d n => f d + n) 0 ds.
