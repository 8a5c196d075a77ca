(** The life of one connection of a node, as seen in the trace: C74. *)
From Verif Require Import Base NodeTypes.
Local Open Scope N_scope.

(** [t] reports that the connection [c] carries something: a message given to its
    transport or written by it, a message received over it or handed to the user. *)
Definition uses (c : N) (t : tr) : Prop :=
  match t with
  | TSend x _ _ _ | TWrote x _ _ | TReg x _
  | TRecv _ (Some x) _ | TAnswer _ (Some x) _ | TCmd (Some x) _ _ | TCmdRsp (Some x) _ _ _ => x = c
  | _ => False
  end.
(** [t] is about the connection [c]: it is reported as new, used, or closed. *)
Definition about (c : N) (t : tr) : Prop := t = TNew c \/ uses c t \/ t = TClose c.
Definition nothing (c : N) (l : list tr) : Prop := forall t, In t l -> ~ about c t.
Definition only_uses (c : N) (l : list tr) : Prop := forall t, In t l -> about c t -> uses c t.
(** Oldest entry first: the connection is not there yet, or it was reported as new
    once and is in use, or it was then closed once and nothing is heard of it any more. *)
Inductive lived (c : N) (l : list tr) : Prop :=
| L_unborn : nothing c l -> lived c l
| L_open a b : l = a ++ TNew c :: b -> nothing c a -> only_uses c b -> lived c l
| L_gone a b d : l = a ++ TNew c :: b ++ TClose c :: d -> nothing c a -> only_uses c b -> nothing c d -> lived c l.
