(** What libuv guarantees to the sender with a fixed area (as in IoWriteSpec.v); traces are
    read with the functions of IoWriteSpec.v. *)
From Verif Require Import Base MemSpec IoWrite IoWriteSpec IoWriteS.
Local Open Scope N_scope.

Definition vallowed (s : vx) (e : wev) : Prop :=
  match e with
  | ESend p _ _ _ => short p
  | EDone _ acts _ _ => v_writing s = true /\ Forall (Forall short_act) acts
  | EDisc _ => True
  | EClosed => v_closing s = true /\ v_writing s = false /\ v_st s <> Disconnected
  end.
Fixpoint vlegal (limit : N) (hash : bytes -> N) (s : vx) (es : list wev) : Prop :=
  match es with
  | [] => True
  | e :: r => vallowed s e /\ match v_step limit hash s e with Ok (s', _) => vlegal limit hash s' r | Crash => True end
  end.
