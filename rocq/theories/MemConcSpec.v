(** Statement-side notions for the concurrent memory channel. *)
From Verif Require Import Base MemSpec Mem MemConc.
Local Open Scope N_scope.

(** Messages handed to the receiver, in order. *)
Definition delivered (s : st) : list bytes := map snd (filter (fun x => (fst x =? OK)%Z) (s_log s)).
(** Messages for which space was reserved, in reservation order, except those the
    reader gave up waiting for. *)
Definition kept (s : st) : list bytes := map b_msg (filter (fun b => negb (b_skip b)) (s_blks s)).

Definition holds (o : op) : option N :=
  match o_pc o with WLoadW q => Some q | WLoadR q _ _ => Some q | WCas q _ _ _ => Some q | _ => None end.

Section Fair.
Variable n : N.
(** A sequence number is fresh if no node carries it, no writer that has not yet
    reserved holds it, and no reserved block not yet consumed uses it. *)
Definition fresh (q : N) (s : st) : Prop :=
  (forall y, y < n -> s_mem s (CSeq y) <> q) /\
  (forall i o, nth_error (s_ops s) i = Some o -> holds o <> Some q) /\
  (forall b B, nth_error (s_blks s) b = Some B -> s_gr s < b_pos B + cost (b_msg B) -> b_seq B <> q).
(** Runs considered:
    - messages are shorter than 2^63 bytes;
    - sequence numbers are fresh when handed out (they repeat after 2^32-1 sends);
    - no compare-and-swap succeeds on a write cursor that has gone all the way round
      since it was loaded;
    - the reader gives up only on writers that never finish and never run again. *)
Definition fair (l : label) (s : st) : Prop :=
  match l with
  | LSend m _ => blen m < 2 ^ 63
  | LW i weak =>
      match nth_error (s_ops s) i with
      | None => True
      | Some o =>
          match o_pc o with
          | WFetch => fresh ((s_seq s + 1) mod two32) s
          | WCas _ wl gw _ => s_w s = wl -> weak = false -> gw = s_gw s
          | WStore b _ _ _ => forall B, nth_error (s_blks s) b = Some B -> b_skip B = false
          | WOr b _ _ _ => forall B, nth_error (s_blks s) b = Some B -> b_skip B = false
          | _ => True
          end
      end
  | LR _ => match s_rd s with
            | RSkip l => forall B, In B (s_blks s) -> b_pos B <= l_grb l < b_pos B + cost (b_msg B) -> b_fin B = false
            | _ => True
            end
  | LRecv _ => True
  end.
End Fair.

Section Run.
Variables (n p timeout : N) (hash : bytes -> N).
(** States reachable by fair runs. *)
Inductive reach : st -> Prop :=
| reach_init : reach init
| reach_step s l s' : reach s -> fair n l s -> step n p timeout hash l s = Some s' -> reach s'.
End Run.

(** The same runs with freshness replaced by: fewer than 2^32 - 1 sequence numbers have
    been handed out. *)
Section Bounded.
Variables (n p timeout : N) (hash : bytes -> N).
Definition fair_bounded (l : label) (s : st) : Prop :=
  match l with
  | LW i weak =>
      match nth_error (s_ops s) i with
      | None => True
      | Some o => match o_pc o with WFetch => s_seq s + 1 < two32 | _ => fair n l s end
      end
  | _ => fair n l s
  end.
Inductive reach_b : st -> Prop :=
| reach_b_init : reach_b init
| reach_b_step s l s' : reach_b s -> fair_bounded l s -> step n p timeout hash l s = Some s' -> reach_b s'.
End Bounded.

(** Node a cell belongs to; block a writer is filling. *)
Definition node_of (c : cell) : N := match c with CFlag i => i | CSeq i => i | CData a => a / 256 end.
Definition writing (o : op) : option nat := match o_pc o with WStore b _ _ _ => Some b | WOr b _ _ _ => Some b | _ => None end.

(** Fair runs in which only the reader moves. *)
Section ReaderRun.
Variables (n p timeout : N) (hash : bytes -> N).
Inductive rrun : st -> st -> Prop :=
| rrun_nil s : rrun s s
| rrun_recv s cap s' s'' : step n p timeout hash (LRecv cap) s = Some s' -> rrun s' s'' -> rrun s s''
| rrun_step s now s' s'' : fair n (LR now) s -> step n p timeout hash (LR now) s = Some s' -> rrun s' s'' -> rrun s s''.
End ReaderRun.
