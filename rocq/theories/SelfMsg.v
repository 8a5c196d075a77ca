(** Messages a node sends to itself, with callbacks that call back into the node.

    The node model of [Node.v] lets callbacks only observe.  Here the part of the node
    that handles messages to itself is modelled with every call a callback can make: the
    state holds the stack of running functions, and what runs on top of it decides what
    may happen next.  The application is not modelled as a function; in every user
    context (outside all calls or inside a callback) any call may follow, and a callback
    may return at any time.

    Simplifications: a message is its content, serialising and parsing it again gives it
    back; memory allocation does not fail; the access keys a node adds to its own
    commands are accepted by it; [on_debug] (debug builds only) does nothing; calls that
    do not concern messages to self appear only through the callbacks they fire
    ([AFire]). *)
From Verif Require Import Base.
Local Open Scope N_scope.

(** Entries of [self_data_msgs_] and [self_cmd_msgs_] (atbus_node.h 716-719). *)
Inductive item :=
| IReq (c : bytes) (rsp : bool)   (** data_transform_req, with FORWARD_DATA_FLAG_REQUIRE_RSP or not *)
| IRsp (c : bytes).               (** data_transform_rsp *)
Inductive citem :=
| CReq (c : bytes)                (** custom_command_req *)
| CRsp (c : bytes).               (** custom_command_rsp *)

(** Where [dispatch_all_self_msgs] (atbus_node.cpp 1683-1780) stands; the number is
    [loop_left]. *)
Inductive pc :=
| PData (ll : Z)                          (** 1697: test of the first loop *)
| PAfter (ll : Z) (c : bytes) (rsp : bool) (** 1725: [on_recv_data] is called or has just returned *)
| PPop (ll : Z)                           (** 1742: [pop_front] comes next *)
| PCmd (ll : Z)                           (** 1745: test of the second loop *)
| PReply (ll : Z)                         (** atbus_msg_handler.cpp 637: [on_custom_cmd] is called or has returned *)
| PCPop (ll : Z).                         (** 1777: [pop_front] comes next *)
(** Where [reset] (270-387) stands. *)
Inductive phase :=
| RInfo   (** 276: [on_info_log] *)
| RLoop   (** 279-282 *)
| RTear.  (** 284-375: connections and endpoints are reset, callbacks fire *)
Inductive frame :=
| FUser (held : bool)        (** a callback; its guard set EN_FT_IN_CALLBACK ([held]) or found it set (85-97) *)
| FDisp (p : pc) (ret : N)   (** [dispatch_all_self_msgs]; its guard set EN_FT_RECV_SELF_MSG *)
| FRst (p : phase).          (** [reset] *)

(** What the application can see. *)
Inductive obs :=
| OSent (c : bytes) (rsp : bool)  (** [send_data] to the own id returned success (or is about to) *)
| OAnswer (c : bytes)             (** a data response addressed to the own id was queued *)
| OCmdSent (c : bytes)            (** [send_custom_cmd] to the own id *)
| OReplied (c : bytes)            (** the answer of [on_custom_cmd] was queued *)
| ORecv (c : bytes)               (** [on_recv_msg] is entered *)
| ORsp (c : bytes)                (** [on_forward_response] is entered *)
| OCmd (c : bytes)                (** [on_custom_cmd] is entered *)
| OCmdRsp (c : bytes)             (** [on_custom_rsp] is entered *)
| OFire                           (** any other callback is entered *)
| OLeave                          (** a callback returns *)
| OReset.                         (** [reset] has cleared the queues *)
Record snode := {
  run_ : bool;        (** [state_] is not CREATED *)
  dq : list item;     (** [self_data_msgs_] *)
  cq : list citem;    (** [self_cmd_msgs_] *)
  f_self : bool;      (** EN_FT_RECV_SELF_MSG *)
  f_cb : bool;        (** EN_FT_IN_CALLBACK *)
  f_rst : bool;       (** EN_FT_RESETTING *)
  stack : list frame; (** running functions, innermost first *)
  slog : list obs;    (** newest first *)
  ub : bool           (** [pop_front] was called on an empty list *)
}.
Definition with_q d c s := {| run_ := run_ s; dq := d; cq := c; f_self := f_self s; f_cb := f_cb s; f_rst := f_rst s; stack := stack s; slog := slog s; ub := ub s |}.
Definition with_st k s := {| run_ := run_ s; dq := dq s; cq := cq s; f_self := f_self s; f_cb := f_cb s; f_rst := f_rst s; stack := k; slog := slog s; ub := ub s |}.
Definition say o s := {| run_ := run_ s; dq := dq s; cq := cq s; f_self := f_self s; f_cb := f_cb s; f_rst := f_rst s; stack := stack s; slog := o :: slog s; ub := ub s |}.
Definition with_f a b c s := {| run_ := run_ s; dq := dq s; cq := cq s; f_self := a; f_cb := b; f_rst := c; stack := stack s; slog := slog s; ub := ub s |}.
Definition with_run b s := {| run_ := b; dq := dq s; cq := cq s; f_self := f_self s; f_cb := f_cb s; f_rst := f_rst s; stack := stack s; slog := slog s; ub := ub s |}.
Definition broken s := {| run_ := run_ s; dq := dq s; cq := cq s; f_self := f_self s; f_cb := f_cb s; f_rst := f_rst s; stack := stack s; slog := slog s; ub := true |}.

Section Conf.
(** [conf_.loop_times] *)
Variable loop : Z.

(** Lines 1693-1696. *)
Definition loop0 : Z := if (loop <=? 0)%Z then 10240%Z else loop.
(** Entry of [dispatch_all_self_msgs] (1683-1692); when refused the call returns 0. *)
Definition enter (s : snode) : snode :=
  if f_self s || f_cb s then s
  else with_st (FDisp (PData loop0) 0 :: stack s) (with_f true (f_cb s) (f_rst s) s).
(** A callback is called: the guard, then the application (for example 1494-1497). *)
Definition call (o : obs) (s : snode) : snode :=
  with_st (FUser (negb (f_cb s)) :: stack s) (with_f (f_self s) true (f_rst s) (say o s)).
(** [send_msg] with the own id (2273-2330), for a data message and for a command. *)
Definition send_self (i : item) (s : snode) : snode :=
  if run_ s then enter (say (match i with IReq c b => OSent c b | IRsp c => OAnswer c end) (with_q (dq s ++ [i]) (cq s) s)) else s.
Definition send_cmd (i : citem) (s : snode) : snode :=
  if run_ s then enter (say (match i with CReq c => OCmdSent c | CRsp c => OReplied c end) (with_q (dq s) (cq s ++ [i]) s)) else s.

(** [dispatch_all_self_msgs] returns [ret]; [reset] calls it again while it is positive
    (280-281). *)
Definition back (ret : N) (k : list frame) : list frame :=
  match k with FRst RLoop :: k => FRst (if ret =? 0 then RTear else RLoop) :: k | _ => k end.
(** One step of [dispatch_all_self_msgs]; [r] is what [on_custom_cmd] put into its
    answer.  [k] is the rest of the stack. *)
Definition disp (p : pc) (ret : N) (k : list frame) (r : bytes) (s : snode) : snode :=
  match p with
  | PData ll =>
      match dq s with
      | i :: _ =>
          if (0 <? ll)%Z then
            match i with
            | IReq c b => call (ORecv c) (with_st (FDisp (PAfter (ll - 1) c b) ret :: k) s)
            | IRsp _ => with_st (FDisp (PPop (ll - 1)) ret :: k) s
            end
          else with_st (FDisp (PCmd (ll - 1)) ret :: k) s
      | [] => with_st (FDisp (PCmd (ll - 1)) ret :: k) s
      end
  | PAfter ll c b =>
      let s := with_st (FDisp (PPop ll) (ret + 1) :: k) s in
      if b then call (ORsp c) s else s
  | PPop ll =>
      match dq s with
      | _ :: d => with_st (FDisp (PData ll) ret :: k) (with_q d (cq s) s)
      | [] => broken s
      end
  | PCmd ll =>
      match cq s with
      | i :: _ =>
          if (0 <? ll)%Z then
            match i with
            | CReq c => call (OCmd c) (with_st (FDisp (PReply (ll - 1)) ret :: k) s)
            | CRsp c => call (OCmdRsp c) (with_st (FDisp (PCPop (ll - 1)) ret :: k) s)
            end
          else with_st (back ret k) (with_f false (f_cb s) (f_rst s) s)
      | [] => with_st (back ret k) (with_f false (f_cb s) (f_rst s) s)
      end
  | PReply ll => send_cmd (CRsp r) (with_st (FDisp (PCPop ll) ret :: k) s)
  | PCPop ll =>
      match cq s with
      | _ :: c => with_st (FDisp (PCmd ll) (ret + 1) :: k) (with_q (dq s) c s)
      | [] => broken s
      end
  end.
Inductive act :=
| ASend (c : bytes) (rsp : bool)  (** [send_data] with the own id *)
| ASendRsp (c : bytes)            (** a data response for the own id is sent (atbus_msg_handler.cpp 247-286) *)
| ACmd (c : bytes)                (** [send_custom_cmd] with the own id *)
| ADispatch                       (** [proc] (576) or [poll] (637) gets to [dispatch_all_self_msgs] *)
| AFire                           (** another callback is called *)
| ALeave                          (** the running callback returns *)
| AReset                          (** [reset] *)
| AInit                           (** [init] of a node that is not running (189-223) *)
| ATick (r : bytes).              (** the node runs on *)
Definition user (s : snode) : bool := match stack s with [] | FUser _ :: _ => true | _ => false end.
Definition sstep (a : act) (s : snode) : option snode :=
  if ub s then None else
  match a with
  | ATick r =>
      match stack s with
      | FDisp p ret :: k => Some (disp p ret k r s)
      | FRst RInfo :: k => Some (with_st (FRst RLoop :: k) s)
      | FRst RLoop :: k => if f_self s || f_cb s then Some (with_st (FRst RTear :: k) s) else Some (enter s)
      | FRst RTear :: k => Some (say OReset (with_run false (with_f false false false (with_q [] [] (with_st k s)))))
      | _ => None
      end
  | AFire =>
      match stack s with
      | FRst RLoop :: _ | FDisp _ _ :: _ => None
      | _ => Some (call OFire s)
      end
  | ALeave =>
      match stack s with
      | FUser held :: k => Some (say OLeave (with_st k (if held then with_f (f_self s) false (f_rst s) s else s)))
      | _ => None
      end
  | ASend c b => if user s then Some (send_self (IReq c b) s) else None
  | ASendRsp c => if user s then Some (send_self (IRsp c) s) else None
  | ACmd c => if user s then Some (send_cmd (CReq c) s) else None
  | ADispatch => if user s then Some (enter s) else None
  | AReset => if user s then Some (if f_rst s then s else with_st (FRst RInfo :: stack s) (with_f (f_self s) (f_cb s) true s)) else None
  | AInit => if user s && negb (run_ s) then Some (with_run true (with_q [] [] s)) else None
  end.
Fixpoint srun (l : list act) (s : snode) : option snode :=
  match l with
  | [] => Some s
  | a :: r => match sstep a s with Some s' => srun r s' | None => None end
  end.
Definition fresh : snode :=
  {| run_ := false; dq := []; cq := []; f_self := false; f_cb := false; f_rst := false; stack := []; slog := []; ub := false |}.
End Conf.
