(** What the variable-length integer format means, without reference to the code:
    big-endian base-128 digits, every byte but the last carries 128. *)
From Verif Require Import Base.
Local Open Scope N_scope.

(** Number of 7-bit groups needed for [v]: at least one. *)
Definition vint_len (v : N) : nat := N.to_nat (N.max 1 ((N.size v + 6) / 7)).

(** Value of a digit string, most significant digit first. *)
Definition digits_value (ds : list N) : N := fold_left (fun acc d => acc * 128 + d) ds 0.

(** [enc] is the encoding of [v]: [vint_len v] bytes, digits of [v], continuation
    bit on all but the last byte. *)
Definition is_encoding (v : N) (enc : bytes) : Prop :=
  length enc = vint_len v /\
  exists hi lo,
    enc = map (fun d => d + 128) hi ++ [lo] /\
    Forall (fun d => d < 128) hi /\ lo < 128 /\
    digits_value (hi ++ [lo]) = v.
