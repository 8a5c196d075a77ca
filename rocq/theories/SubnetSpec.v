(** Specification of subnets: sets of bus ids. *)
From Verif Require Import Base.
Local Open Scope N_scope.

(** The ids a configuration entry (prefix, mask) stands for: all ids that agree with
    the prefix on every bit above the mask. *)
Definition in_conf (c : N * N) (id : N) : Prop := id / 2 ^ snd c = fst c / 2 ^ snd c.

(** Membership in a closed interval / in a list of them. *)
Definition in_iv (i : N * N) (id : N) : Prop := fst i <= id <= snd i.
Definition in_ivs (l : list (N * N)) (id : N) : Prop := exists i, In i l /\ in_iv i id.

Definition iv_disjoint (i j : N * N) : Prop := forall id, in_iv i id -> in_iv j id -> False.
Definition pairwise_disjoint (l : list (N * N)) : Prop := ForallOrdPairs iv_disjoint l.

(** Routing table: the list of live endpoints (object, id, intervals of ids). *)
Record sep := { p_ref : N; p_id : N; p_ivs : list (N * N) }.
Definition overlapb (i j : N * N) : bool := (N.max (fst i) (fst j) <=? N.min (snd i) (snd j)).
Definition clashb (x y : sep) : bool := existsb (fun i => existsb (overlapb i) (p_ivs y)) (p_ivs x).
Definition in_ivb (id : N) (i : N * N) : bool := (fst i <=? id) && (id <=? snd i).
Definition servesb (id : N) (x : sep) : bool := existsb (in_ivb id) (p_ivs x).

Inductive top :=
| Ins (x : sep)                          (* register an endpoint *)
| Rem (id : N) (expected : option N)     (* remove the endpoint of that id (only if it is that object) *)
| Ask (id : N).                          (* route lookup *)
Inductive tout := Flag (b : bool) | Found (o : option N).

Definition is_target (id : N) (expected : option N) (x : sep) : bool :=
  (p_id x =? id) && match expected with None => true | Some r => p_ref x =? r end.

Definition table_step (live : list sep) (o : top) : tout * list sep :=
  match o with
  | Ins x => if existsb (clashb x) live then (Flag false, live) else (Flag true, x :: live)
  | Rem id ex => if existsb (is_target id ex) live
                 then (Flag true, filter (fun x => negb (is_target id ex x)) live)
                 else (Flag false, live)
  | Ask id => (Found (option_map p_ref (find (servesb id) live)), live)
  end.
Fixpoint table_run (live : list sep) (os : list top) : list tout * list sep :=
  match os with
  | [] => ([], live)
  | o :: r => let (b, l1) := table_step live o in
              let (bs, l2) := table_run l1 r in (b :: bs, l2)
  end.
