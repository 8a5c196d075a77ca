(** Subnets of an endpoint: src/atbus_endpoint.cpp. *)
From Verif Require Import Base.
From Coq Require Import Sorting.Permutation.
Local Open Scope N_scope.

(** [endpoint_subnet_conf] (endpoint.h 52-58). *)
Record sconf := { c_prefix : N; c_mask : N }.
(** [endpoint_subnet_range] (endpoint.h 60-95). *)
Record range := { g_prefix : N; g_mask : N; g_min : N; g_max : N }.

(** [endpoint_subnet_range(a, b)] (endpoint.cpp 28-32).  [1 << mask] is an [int]
    shift followed by an [int] subtraction: undefined from 31 on, hence [None].  The
    non-negative int is then converted to the unsigned id type. *)
Definition mk_range (a b : N) : option range :=
  if b <=? 30
  then let ones := 2 ^ b - 1 in
       let mx := N.lor a ones in
       Some {| g_prefix := a; g_mask := b; g_min := mx - ones; g_max := mx |}
  else None.

(** The bounds a user sees: [get_id_min], [get_id_max] (endpoint.h 79-80). *)
Definition iv (r : range) : N * N := (g_min r, g_max r).

(** [operator==] (34-36), [operator<] (62-68; the three-way version 39-58 agrees). *)
Definition range_eqb (x y : range) : bool := (g_max x =? g_max y) && (g_min x =? g_min y).
Definition range_ltb (x y : range) : bool :=
  if g_max x =? g_max y then g_min y <? g_min x else g_max x <? g_max y.

(** [contain(range)] (98-100), [contain(id)] (102-108). *)
Definition contain_range (x y : range) : bool := (g_max y <=? g_max x) && (g_min x <=? g_min y).
Definition contain_id (x : range) (id : N) : bool :=
  if id =? 0 then false else (id <=? g_max x) && (g_min x <=? id).

(** Static [contain(id_prefix, mask_bits, id)] (110-117); undefined shift as above. *)
Definition conf_contain (c : sconf) (id : N) : option bool :=
  if id =? 0 then Some false
  else if c_mask c <=? 30
       then Some (N.lor (c_prefix c) (2 ^ c_mask c - 1) =? N.lor id (2 ^ c_mask c - 1))
       else None.

(** [get_children_min_id]/[get_children_max_id] (262-270) and the static
    [is_child_node] (272-285): 64-bit shifts, so masks up to 63 are defined. *)
Definition children_min (p m : N) : N := N.land p (two64 - 1 - (2 ^ m - 1)).
Definition children_max (p m : N) : N := N.lor p (2 ^ m - 1).
Definition static_is_child (parent prefix m id : N) : bool :=
  let p := if prefix =? 0 then parent else prefix in
  negb (parent =? id) && (children_min p m <=? id) && (id <=? children_max p m).

(** Inner [while] loop of [merge_subnets] (728-743): [top] is subnets[new_size-1],
    [rest] the entries below it, nearest first. *)
Fixpoint settle (top : range) (rest : list range) : option (list range) :=
  match rest with
  | [] => Some [top]
  | below :: rest' =>
      if (g_mask top =? g_mask below) && (g_min top =? wrap64 (g_max below + 1))
      then match mk_range (g_min below) (g_mask below + 1) with
           | None => None
           | Some up =>
               if (g_max up =? g_max top) && (g_min up =? g_min below)
               then settle up rest'
               else Some (top :: rest)
           end
      else Some (top :: rest)
  end.

(** One round of the outer loop (702-744) on the stack of kept entries. *)
Definition merge_one (stack : list range) (x : range) : option (list range) :=
  match stack with
  | [] => Some [x]                      (* not reached: new_size starts at 1 *)
  | top :: rest => if g_min x <=? g_min top then settle x rest else settle x stack
  end.

Fixpoint merge_all (stack : list range) (l : list range) : option (list range) :=
  match l with
  | [] => Some (rev stack)
  | x :: r => match merge_one stack x with None => None | Some s => merge_all s r end
  end.

(** [merge_subnets] (692-752) after the sort. *)
Definition merge_sorted (l : list range) : option (list range) :=
  match l with
  | [] => Some []
  | x :: r => merge_all [x] r
  end.

(** [std::sort] (697): any sorted permutation is allowed by the standard; entries
    that compare equal differ at most in [g_prefix], which is never read again.
    [isort] is one such sort. *)
Definition range_leb (x y : range) : bool := negb (range_ltb y x).
Fixpoint insert_range (x : range) (l : list range) : list range :=
  match l with
  | [] => [x]
  | y :: r => if range_leb x y then x :: l else y :: insert_range x r
  end.
Fixpoint isort (l : list range) : list range :=
  match l with [] => [] | x :: r => insert_range x (isort r) end.
Inductive sorted : list range -> Prop :=
| sorted_nil : sorted []
| sorted_cons x l : Forall (fun y => range_leb x y = true) l -> sorted l -> sorted (x :: l).

(** [merge_subnets] for every admissible sort, and the executable one. *)
Definition merges_to (l out : list range) : Prop :=
  exists s, Permutation l s /\ sorted s /\ merge_sorted s = Some out.
Definition merge_subnets (l : list range) : option (list range) := merge_sorted (isort l).

(** The subnet list built by [endpoint::create] (157-172) before the merge. *)
Fixpoint conf_ranges (id : N) (cs : list sconf) : option (list range * bool) :=
  match cs with
  | [] => Some ([], true)
  | c :: r =>
      match conf_ranges id r with
      | None => None
      | Some (l, auto) =>
          if c_prefix c =? 0
          then match mk_range id (c_mask c) with
               | None => None
               | Some x => Some (x :: l, false)
               end
          else match mk_range (c_prefix c) (c_mask c), conf_contain c id with
               | Some x, Some k => Some (x :: l, auto && negb k)
               | _, _ => None
               end
      end
  end.
Definition endpoint_ranges (id : N) (cs : list sconf) : option (list range) :=
  match conf_ranges id cs with
  | None => None
  | Some (l, auto) =>
      if auto then match mk_range id 0 with None => None | Some x => Some (l ++ [x]) end
      else Some l
  end.
Definition endpoint_subnets (id : N) (cs : list sconf) : option (list range) :=
  match endpoint_ranges id cs with None => None | Some l => merge_subnets l end.

(** [endpoint::is_child_node(id)] (247-260). *)
Definition ep_is_child (self : N) (subs : list range) (id : N) : bool :=
  if self =? 0 then false else existsb (fun r => contain_id r id) subs.

(** [search_subnet_for_id] (754-769): index of the match, or the length. *)
Fixpoint search_subnet (l : list range) (id : N) : nat :=
  match l with
  | [] => 0
  | r :: l' => if contain_id r id then 0%nat else S (search_subnet l' id)
  end.

(** [contain] overloads (771-843). *)
Definition subnets_contain (ps cs : list range) : bool :=
  match ps, cs with
  | [], _ :: _ => false
  | _, _ => forallb (fun c => existsb (fun p => contain_id p (g_min c) && contain_id p (g_max c)) ps) cs
  end.
Definition subnets_contain_conf (ps : list range) (cs : list sconf) : bool :=
  match ps, cs with
  | [], _ :: _ => false
  | _, _ => forallb (fun c => existsb (fun p => contain_id p (c_prefix c) && (c_mask c <=? g_mask p)) ps) cs
  end.
Definition subnets_contain_id (ps : list range) (id : N) : bool :=
  match ps with
  | [] => false
  | _ => if id =? 0 then false else existsb (fun p => contain_id p id) ps
  end.
Fixpoint existsb_opt {A} (f : A -> option bool) (l : list A) : option bool :=
  match l with
  | [] => Some false
  | x :: r => match f x with None => None | Some true => Some true | Some false => existsb_opt f r end
  end.
Definition confs_contain_id (ps : list sconf) (id : N) : option bool :=
  match ps with
  | [] => Some false
  | _ => if id =? 0 then Some false else existsb_opt (fun c => conf_contain c id) ps
  end.

(** What [send_reg] announces (msg_handler.cpp 227-238) and the configuration the
    registration handler builds from it (838-855): prefix and mask of every merged
    range; a one-id subnet is appended when no announced pair contains the sender. *)
Definition announce (l : list range) : list sconf :=
  map (fun r => {| c_prefix := g_prefix r; c_mask := g_mask r |}) l.
Definition reg_confs (id : N) (cs : list sconf) : option (list sconf) :=
  match existsb_opt (fun c => conf_contain c id) cs with
  | None => None
  | Some true => Some cs
  | Some false => Some (cs ++ [{| c_prefix := id; c_mask := 0 |}])
  end.
(** The subnets the receiver of a registration computes (866). *)
Definition peer_subnets (id : N) (cs : list sconf) : option (list range) :=
  match reg_confs id cs with None => None | Some cs' => endpoint_subnets id cs' end.
(** The containment test a registering child must pass (843-863). *)
Definition child_accepted (self_subs : list range) (id : N) (cs : list sconf) : option bool :=
  match reg_confs id cs with None => None | Some cs' => Some (subnets_contain_conf self_subs cs') end.
