(** Why an endpoint may be removed, stated over the trace of a node.  A trace is newest
    first here: the past of an entry is what follows it. *)
From Verif Require Import Base NodeTypes.
Local Open Scope N_scope.

(** How many faults of endpoint [y] were counted since a message of it was last handled. *)
Fixpoint blame (y : N) (past : list tr) : N :=
  match past with
  | [] => 0
  | TGood z :: r => if z =? y then 0 else blame y r
  | TFault z _ _ :: r => if z =? y then blame y r + 1 else blame y r
  | _ :: r => blame y r
  end.
(** The node is being reset. *)
Definition resetting (past : list tr) : Prop := exists a b, past = a ++ TBegin :: b /\ ~ In TReset a.
(** [disconnect] was just called with this number. *)
Definition asked (id : N) (past : list tr) : Prop := exists b, past = TAsked id :: b.
(** A fault was just counted for an endpoint with this number, which now has more faults
    in a row than are tolerated. *)
Definition overdue (id : N) (past : list tr) : Prop :=
  exists y lim b, past = TFault y id lim :: b /\ lim < blame y past.
(** Entries about the connections that are closed with an endpoint. *)
Definition about_closing (t : tr) : Prop := match t with TInvalid _ | TClose _ | TDown _ => True | _ => False end.
(** The endpoint was just found without a control connection or without a running data
    connection, and its connections were closed. *)
Definition deserted (e : N) (past : list tr) : Prop :=
  exists k ctrl data b, past = k ++ TCheck e ctrl data :: b /\ Forall about_closing k /\ (ctrl = None \/ data = []).
(** A reason to remove endpoint [e], which has number [id]. *)
Definition reason (id e : N) (past : list tr) : Prop :=
  resetting past \/ asked id past \/ overdue id past \/ deserted e past.
(** Between two faults of endpoint [y] a message of it was handled. *)
Definition steady (y : N) (past : list tr) : Prop :=
  forall a m b i j l k, past = a ++ TFault y i l :: m ++ TFault y j k :: b -> In (TGood y) m.
