(** Channel addresses: src/channel_utility.cpp.  A C string is the list of its
    character codes before the terminating NUL. *)
From Verif Require Import Base AddressSpec.
Local Open Scope N_scope.

(** [channel_address_t] (include/detail/libatbus_channel_types.h 52-57). *)
Record addr := { a_address : list N; a_scheme : list N; a_host : list N; a_port : Z }.

(** Outcome of the parsing [make_address]: [std::string::substr] may throw, and
    [sscanf("%d")] is undefined for a number that does not fit an [int]. *)
Inductive parsed := Rejected | Parsed (a : addr) | Throws | Undefined.

(** [find_first_of("://")]: first ':' or '/'. *)
Fixpoint find_first (s : list N) : option nat :=
  match s with
  | [] => None
  | c :: r => if (c =? colon) || (c =? slash) then Some 0%nat else option_map S (find_first r)
  end.
(** [find_last_of(":")]. *)
Fixpoint find_last (s : list N) : option nat :=
  match s with
  | [] => None
  | c :: r => match find_last r with
              | Some k => Some (S k)
              | None => if c =? colon then Some 0%nat else None
              end
  end.

(** [sscanf(text, "%d", &port)]: white space, optional sign, digits.  [None]: the
    value does not fit an int; [Some None]: no number, the variable is untouched. *)
Definition is_space (c : N) : bool := (c =? 32) || ((9 <=? c) && (c <=? 13)).
Definition is_digitb (c : N) : bool := (48 <=? c) && (c <=? 57).
Fixpoint skip_space (s : list N) : list N :=
  match s with c :: r => if is_space c then skip_space r else s | [] => [] end.
Fixpoint take_digits (s : list N) : list N :=
  match s with c :: r => if is_digitb c then c :: take_digits r else [] | [] => [] end.
Definition scan_int (s : list N) : option (option Z) :=
  let s1 := skip_space s in
  let '(neg, s2) := match s1 with
                    | c :: r => if c =? 45 then (true, r) else if c =? 43 then (false, r) else (false, s1)
                    | [] => (false, [])
                    end in
  match take_digits s2 with
  | [] => Some None
  | ds => let v := Z.of_N (fold_left (fun v c => 10 * v + (c - 48)) ds 0) in
          let z := if neg then Z.opp v else v in
          if ((-2147483648 <=? z) && (z <=? 2147483647))%Z then Some (Some z) else None
  end.

(** Parsing [make_address] (15-36).  [port_end - scheme_end - 3] is computed in
    size_t: when it wraps the count exceeds the rest of the string, so [substr]
    takes everything; so does [npos].  [substr] throws [std::out_of_range] when the
    start lies behind the end of the string. *)
Definition parse_address (s : list N) : parsed :=
  match find_first s with
  | None => Rejected
  | Some se =>
      let pe := find_last s in
      let port := match pe with
                  | Some k => if (se + 3 <=? k)%nat
                              then match scan_int (skipn (k + 1) s) with
                                   | None => None
                                   | Some None => Some 0%Z
                                   | Some (Some z) => Some z
                                   end
                              else Some 0%Z
                  | None => Some 0%Z
                  end in
      match port with
      | None => Undefined
      | Some port =>
          if (length s <? se + 3)%nat then Throws
          else let rest := skipn (se + 3) s in
               let host := match pe with
                           | Some k => if (se + 3 <=? k)%nat then firstn (k - se - 3) rest else rest
                           | None => rest
                           end in
               Parsed {| a_address := s; a_scheme := firstn se s; a_host := host; a_port := port |}
      end
  end.

(** [snprintf("%d")] of a positive int (at most 10 digits, so the 16-byte buffer
    never truncates). *)
Fixpoint dec_digits (fuel : nat) (n : N) (acc : list N) : list N :=
  match fuel with
  | O => acc
  | S f => let acc' := (48 + n mod 10) :: acc in
           if n <? 10 then acc' else dec_digits f (n / 10) acc'
  end.
Definition print_int (z : Z) : list N := dec_digits 20 (Z.to_N z) [].

(** Building [make_address] (38-51). *)
Definition build_address (scheme host : list N) (port : Z) : addr :=
  {| a_address := scheme ++ sep3 ++ host ++ (if (0 <? port)%Z then colon :: print_int port else []);
     a_scheme := scheme; a_host := host; a_port := port |}.

(** [UTIL_STRFUNC_STRNCASE_CMP(p, in, strlen(p)) == 0] in the C locale. *)
Fixpoint prefix_nocase (p s : list N) : bool :=
  match p, s with
  | [], _ => true
  | _, [] => false
  | a :: p', b :: s' => (lower a =? lower b) && prefix_nocase p' s'
  end.
Definition p_mem : list N := [109; 101; 109; 58].
Definition p_shm : list N := [115; 104; 109; 58].
Definition p_unix : list N := [117; 110; 105; 120; 58].

(** Predicates (53-107); the argument [None] is the NULL pointer. *)
Definition non_empty (s : option (list N)) : option (list N) :=
  match s with Some (c :: r) => Some (c :: r) | _ => None end.
Definition is_simplex (s : option (list N)) : bool :=
  match non_empty s with
  | None => false
  | Some s => if prefix_nocase p_mem s then true else prefix_nocase p_shm s
  end.
Definition is_duplex (s : option (list N)) : bool :=
  match non_empty s with None => false | Some _ => negb (is_simplex s) end.
Definition is_local_process (s : option (list N)) : bool :=
  match non_empty s with None => false | Some s => prefix_nocase p_mem s end.
Definition is_local_host (s : option (list N)) : bool :=
  match non_empty s with
  | None => false
  | Some t => if is_local_process s then true else if prefix_nocase p_shm t then true else prefix_nocase p_unix t
  end.
