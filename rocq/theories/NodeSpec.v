(** What a user of a node can rely on, stated over the trace of its effects.  A trace
    is read oldest first; the model's log is newest first. *)
From Verif Require Import Base NodeTypes.
Local Open Scope N_scope.

(** ** Up and down notifications *)
(** Between two resets: nothing yet, up reported, down reported. *)
Inductive phase := Quiet | Up | Down.
Definition phase_step (p : option phase) (t : tr) : option phase :=
  match p, t with
  | Some Quiet, TUp => Some Up
  | Some Up, TDown _ => Some Down
  | _, (TUp | TDown _) => None
  | Some _, TReset => Some Quiet
  | _, _ => p
  end.
(** [None] is an up or down notification out of place. *)
Definition phase_of (trace : list tr) : option phase := fold_left phase_step trace (Some Quiet).

(** ** Endpoint notifications *)
(** The notifications about one endpoint, oldest first: [true] for added. *)
Definition about (e : N) (t : tr) : list bool :=
  match t with
  | TAdded x => if x =? e then [true] else []
  | TRemoved x => if x =? e then [false] else []
  | _ => []
  end.
Definition notified (e : N) (trace : list tr) : list bool := flat_map (about e) trace.

(** ** Traffic of a connection *)
(** Number and bytes of the messages the transport accepted, and of those it reported
    as written or lost, since the transport was last closed. *)
Definition plus2 (p q : N * N) : N * N := (fst p + fst q, snd p + snd q).
Definition accepted_step (c : N) (a : N * N) (t : tr) : N * N :=
  match t with
  | TSend x _ n r => if (x =? c) && (0 <=? r)%Z then plus2 a (1, n) else a
  | TClose x => if x =? c then (0, 0) else a
  | _ => a
  end.
Definition reported_step (c : N) (a : N * N) (t : tr) : N * N :=
  match t with
  | TWrote x _ n => if x =? c then plus2 a (1, n) else a
  | TClose x => if x =? c then (0, 0) else a
  | _ => a
  end.
Definition msgs_accepted (c : N) (trace : list tr) : N * N := fold_left (accepted_step c) trace (0, 0).
Definition msgs_reported (c : N) (trace : list tr) : N * N := fold_left (reported_step c) trace (0, 0).
(** Of those reported, the ones reported as written. *)
Definition written_step (c : N) (a : N * N) (t : tr) : N * N :=
  match t with
  | TWrote x z n => if (x =? c) && (z =? 0)%Z then plus2 a (1, n) else a
  | TClose x => if x =? c then (0, 0) else a
  | _ => a
  end.
Definition msgs_written (c : N) (trace : list tr) : N * N := fold_left (written_step c) trace (0, 0).

(** ** What one call adds *)
(** The trace is kept newest first. *)
Definition gained (s s' : node) (t : tr) : Prop := exists l, log s' = l ++ log s /\ In t l.
