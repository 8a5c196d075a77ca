(** Specification of a memory channel: a bounded FIFO queue of byte strings whose
    capacity is counted in nodes of 256 bytes, 16 bytes per message being overhead. *)
From Verif Require Import Base.
Local Open Scope N_scope.

Definition blen (m : bytes) : N := N.of_nat (length m).
Definition cost (m : bytes) : N := (blen m + 16 + 255) / 256.
Definition used (q : list bytes) : N := fold_right (fun m n => cost m + n) 0 q.

Inductive mop := Send (m : bytes) | Recv (cap : N).
(** A receive reports a code, the bytes written to the caller's buffer and the
    reported size (if any). *)
Inductive mout := Sent (code : Z) | Got (code : Z) (written : bytes) (size : option N).

Definition OK : Z := 0%Z.
Definition E_NO_DATA : Z := (-3)%Z.
Definition E_BUFF_LIMIT : Z := (-4)%Z.

(** [n] nodes in all, [p] of them kept in reserve. *)
Definition queue_step (n p : N) (q : list bytes) (o : mop) : mout * list bytes :=
  match o with
  | Send m =>
      if blen m =? 0 then (Sent OK, q)
      else if used q + cost m + p + 1 <=? n then (Sent OK, q ++ [m])
      else (Sent E_BUFF_LIMIT, q)
  | Recv cap =>
      match q with
      | [] => (Got E_NO_DATA [] None, [])
      | m :: r => if cap <? blen m then (Got E_BUFF_LIMIT [] (Some (blen m)), q)
                  else (Got OK m (Some (blen m)), r)
      end
  end.
Fixpoint queue_run (n p : N) (q : list bytes) (os : list mop) : list mout * list bytes :=
  match os with
  | [] => ([], q)
  | o :: r => let (x, q1) := queue_step n p q o in
              let (xs, q2) := queue_run n p q1 r in (x :: xs, q2)
  end.

(** What an observer sees of a history: the non-empty messages accepted and the
    messages received, in order. *)
Fixpoint accepted (os : list mop) (xs : list mout) : list bytes :=
  match os, xs with
  | Send m :: os', Sent r :: xs' => (if (r =? OK)%Z && negb (blen m =? 0) then [m] else []) ++ accepted os' xs'
  | _ :: os', _ :: xs' => accepted os' xs'
  | _, _ => []
  end.
Fixpoint received (xs : list mout) : list bytes :=
  match xs with
  | Got r b _ :: xs' => (if (r =? OK)%Z then [b] else []) ++ received xs'
  | _ :: xs' => received xs'
  | [] => []
  end.
