(** What the log of a node says about the messages it sent to itself.  Logs are newest
    first; [since l] is the chronological list of what happened after the last reset. *)
From Verif Require Import Base SelfMsg.

Fixpoint seg (l : list obs) : list obs :=
  match l with
  | [] | OReset :: _ => []
  | o :: r => o :: seg r
  end.
Definition since (l : list obs) : list obs := rev (seg l).
(** Data sent to self, with the wish for a response; data received; responses. *)
Definition sent (l : list obs) : list (bytes * bool) := flat_map (fun o => match o with OSent c b => [(c, b)] | _ => [] end) (since l).
Definition got (l : list obs) : list bytes := flat_map (fun o => match o with ORecv c => [c] | _ => [] end) (since l).
Definition responses (l : list obs) : list bytes := flat_map (fun o => match o with ORsp c => [c] | _ => [] end) (since l).
Definition wanted (l : list (bytes * bool)) : list bytes := flat_map (fun p : bytes * bool => if snd p then [fst p] else []) l.
(** Commands and the answers to them: queued, and handed to the callbacks. *)
Definition cmds (l : list obs) : list (bytes + bytes) :=
  flat_map (fun o => match o with OCmdSent c => [inl c] | OReplied c => [inr c] | _ => [] end) (since l).
Definition handled (l : list obs) : list (bytes + bytes) :=
  flat_map (fun o => match o with OCmd c => [inl c] | OCmdRsp c => [inr c] | _ => [] end) (since l).
Definition answers (l : list obs) : nat := length (flat_map (fun o => match o with OReplied c => [c] | _ => [] end) (since l)).
Definition calls (l : list obs) : nat := length (flat_map (fun o => match o with OCmd c => [c] | _ => [] end) (since l)).
(** How many callbacks are running. *)
Fixpoint running (l : list obs) : nat :=
  match l with
  | [] => 0
  | OLeave :: r => pred (running r)
  | (ORecv _ | ORsp _ | OCmd _ | OCmdRsp _ | OFire) :: r => S (running r)
  | _ :: r => running r
  end.
(** The entry tells that a message the node sent to itself is handed to a callback. *)
Definition to_self (o : obs) : bool := match o with ORecv _ | ORsp _ | OCmd _ | OCmdRsp _ => true | _ => false end.
