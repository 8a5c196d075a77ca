(** Variable-length integers: src/detail/buffer.cpp, namespace fn. *)
From Verif Require Import Base.
Local Open Scope N_scope.

(** Body of the [for] loop of [read_vint] (buffer.cpp 55-66).  [out] is the
    accumulator (a uint64_t, so [<<=] wraps), [used] the number of bytes already
    consumed ([s - left]).  The loop is entered with at least one byte left. *)
Fixpoint read_loop (out : N) (used : nat) (d : bytes) : N * nat :=
  match d with
  | [] => (out, used) (* buffer.cpp 55: left = 0, loop ends; unreachable for s > 0 *)
  | b :: r =>
      let out' := N.lor (wrap64 (N.shiftl out 7)) (N.land 0x7F b) in
      if N.land 0x80 b =? 0 then (out', S used)          (* 61-62 break *)
      else match r with
           | [] => (out', 0%nat)                          (* 63-65 return 0 *)
           | _ => read_loop out' (S used) r
           end
  end.

(** [read_vint] (buffer.cpp 47-69): the value stored through the reference
    parameter and the returned byte count.  The null-pointer test is not
    modelled: a list is never null. *)
Definition read_vint (d : bytes) : N * nat :=
  match d with
  | [] => (0, 0%nat)
  | _ => read_loop 0 0 d
  end.

(** [while] loop of [write_vint] (buffer.cpp 81-87).  [room] is [s - used]; [w]
    holds the bytes written so far in address order. *)
Fixpoint write_loop (room : nat) (inp : N) (w : bytes) : N * bytes :=
  match room with
  | O => (inp, w)
  | S r =>
      if inp =? 0 then (inp, w)
      else write_loop r (N.shiftr inp 7) (w ++ [N.lor 0x80 (N.land inp 0x7F)])
  end.

(** [write_vint] (buffer.cpp 71-99) on a buffer whose current content is [buf]
    (its length is the parameter [s]): the returned byte count and the content of
    the buffer afterwards.  When the value does not fit the function returns 0
    but has already overwritten the buffer, unreversed (89-91). *)
Definition write_vint (inp : N) (buf : bytes) : nat * bytes :=
  match buf with
  | [] => (0%nat, buf)
  | _ :: _ =>
      let (rest, w) := write_loop (length buf - 1) (N.shiftr inp 7) [N.land 0x7F inp] in
      if negb (rest =? 0) then (0%nat, w ++ skipn (length w) buf)
      else (length w, rev w ++ skipn (length w) buf)
  end.
