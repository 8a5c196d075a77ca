(** What libuv guarantees to the sender, and how to read a trace. *)
From Verif Require Import Base MemSpec IoSpec IoWrite.
Local Open Scope N_scope.

(** Messages have a length that fits an [int].  A write completes only when one is in
    progress.  The close callback comes once, after uv_close and after the completion of the
    pending write. *)
Definition short (p : bytes) : Prop := blen p < 2 ^ 31.
Definition short_act (a : act) : Prop := match a with ASend p _ => short p | ADisc _ => True end.
Definition allowed (s : wx) (e : wev) : Prop :=
  match e with
  | ESend p _ _ _ => short p
  | EDone _ acts _ _ => w_writing s = true /\ Forall (Forall short_act) acts
  | EDisc _ => True
  | EClosed => w_closing s = true /\ w_writing s = false /\ w_st s <> Disconnected
  end.
Fixpoint wlegal (limit : N) (hash : bytes -> N) (s : wx) (es : list wev) : Prop :=
  match es with
  | [] => True
  | e :: r => allowed s e /\ match w_step limit hash s e with Ok (s', _) => wlegal limit hash s' r | Crash => True end
  end.
(** The allocator never fails to provide the merged block; uv_write never fails at once. *)
Definition merge_memory (e : wev) : Prop := match e with ESend _ _ ok _ => ok = true | EDone _ _ ok _ => ok = true | _ => True end.
Definition writes_start (e : wev) : Prop := match e with ESend _ _ _ uv => uv = 0%Z | EDone _ _ _ uv => uv = 0%Z | _ => True end.

(** Messages taken by the queue: non-empty ones whose send returned success or
    WRITE_FAILED. *)
Definition taken (o : wout) : list bytes :=
  match o with
  | OSend (b :: p) c => if ((c =? 0) || (c =? -603))%Z then [b :: p] else []
  | _ => []
  end.
Definition accepted (t : list wout) : list bytes := flat_map taken t.
(** Bytes handed to the transport, in order. *)
Definition wire (t : list wout) : bytes := flat_map (fun o => match o with OWrite d => d | _ => [] end) t.
(** Payloads of the written callbacks: all, and those with success. *)
Definition reported (t : list wout) : list bytes := flat_map (fun o => match o with ODone _ _ p => [p] | _ => [] end) t.
Definition succeeded (t : list wout) : list bytes := flat_map (fun o => match o with ODone _ c p => if (c =? 0)%Z then [p] else [] | _ => [] end) t.
(** The wire format of a list of messages. *)
Definition frames_of (hash : bytes -> N) (ms : list bytes) (w : bytes) : Prop := is_stream (map (fun m => (hash m, m)) ms) w.

(** Nobody asks for a forced disconnect. *)
Definition forced (a : act) : bool := match a with ADisc true => true | _ => false end.
Definition gentle (e : wev) : Prop :=
  match e with EDisc f => f = false | EDone _ acts _ _ => forallb (forallb (fun a => negb (forced a))) acts = true | _ => True end.
