(** Routing table of a node: src/atbus_node.cpp, [endpoint_collection_t]. *)
From Verif Require Import Base Subnet.
Local Open Scope N_scope.

(** An endpoint as the table sees it: object identity, id, subnets. *)
Record ep := { e_ref : N; e_id : N; e_subs : list range }.
(** [std::map<endpoint_subnet_range, endpoint::ptr_t>] (node.h 140) as the list of
    its entries in key order. *)
Definition coll := list (range * ep).

(** [lower_bound(endpoint_subnet_range(id, 0))]: first entry not less than [id,id]. *)
Definition point (id : N) : range := {| g_prefix := id; g_mask := 0; g_min := id; g_max := id |}.
Fixpoint lower_bound (c : coll) (k : range) : option (range * ep) :=
  match c with
  | [] => None
  | (r, e) :: c' => if range_ltb r k then lower_bound c' k else Some (r, e)
  end.

(** [coll[k] = e]: overwrite the entry of an equivalent key or insert. *)
Fixpoint coll_set (c : coll) (k : range) (e : ep) : coll :=
  match c with
  | [] => [(k, e)]
  | (r, x) :: c' =>
      if range_ltb r k then (r, x) :: coll_set c' k e
      else if range_ltb k r then (k, e) :: c
      else (r, e) :: c'
  end.
(** [coll.erase(k)]. *)
Fixpoint coll_erase (c : coll) (k : range) : coll :=
  match c with
  | [] => []
  | (r, x) :: c' =>
      if range_ltb r k then (r, x) :: coll_erase c' k
      else if range_ltb k r then c
      else c'
  end.

(** [node::check_conflict] (node.cpp 1970-1985) and its vector version (1987-1996). *)
Definition check_conflict (c : coll) (r : range) : bool :=
  match lower_bound c (point (g_min r)) with
  | None => false
  | Some (k, _) => contain_id k (g_min r) || contain_id r (g_min k)
  end.
Definition check_conflicts (c : coll) (rs : list range) : bool := existsb (check_conflict c) rs.

(** [node::find_route] (1998-2013). *)
Definition find_route (c : coll) (id : N) : option ep :=
  match lower_bound c (point id) with
  | None => None
  | Some (k, e) => if e_id e =? id then Some e else if contain_id k id then Some e else None
  end.

(** [node::insert_child] (2015-2037) and [node::remove_child] (2039-2066); the
    boolean is the return value, which is also whether the event callback ran. *)
Definition insert_child (c : coll) (e : ep) : bool * coll :=
  if check_conflicts c (e_subs e) then (false, c)
  else (true, fold_left (fun c r => coll_set c r e) (e_subs e) c).
Definition remove_child (c : coll) (id : N) (expected : option N) : bool * coll :=
  match lower_bound c (point id) with
  | None => (false, c)
  | Some (_, e) =>
      if negb (e_id e =? id) then (false, c)
      else if match expected with None => false | Some x => negb (e_ref e =? x) end then (false, c)
      else (true, fold_left coll_erase (e_subs e) c)
  end.

(** A history of calls on one table. *)
Inductive rop := RIns (e : ep) | RRem (id : N) (expected : option N) | RAsk (id : N).
Inductive rout := RFlag (b : bool) | RFound (o : option N).
Definition route_step (c : coll) (o : rop) : rout * coll :=
  match o with
  | RIns e => let (b, c') := insert_child c e in (RFlag b, c')
  | RRem id ex => let (b, c') := remove_child c id ex in (RFlag b, c')
  | RAsk id => (RFound (option_map e_ref (find_route c id)), c)
  end.
Fixpoint route_run (c : coll) (os : list rop) : list rout * coll :=
  match os with
  | [] => ([], c)
  | o :: r => let (b, c1) := route_step c o in
              let (bs, c2) := route_run c1 r in (b :: bs, c2)
  end.
