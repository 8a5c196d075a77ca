(** Specification of address texts: characters are their codes. *)
From Verif Require Import Base.
Local Open Scope N_scope.

Definition colon : N := 58.
Definition slash : N := 47.
Definition sep3 : list N := [colon; slash; slash].          (* "://" *)

(** Value of a decimal digit string, most significant digit first. *)
Definition digit_val (c : N) : N := c - 48.
Definition is_digit (c : N) : Prop := 48 <= c <= 57.
Definition dec_value (ds : list N) : N := fold_left (fun v c => 10 * v + digit_val c) ds 0.
(** [ds] is the usual decimal text of [n]. *)
Definition decimal_text (n : N) (ds : list N) : Prop :=
  Forall is_digit ds /\ dec_value ds = n /\ ds <> [] /\ (hd 0 ds = 48 -> ds = [48]).

Definition lower (c : N) : N := if (65 <=? c) && (c <=? 90) then c + 32 else c.
Definition same_nocase (a b : list N) : Prop := map lower a = map lower b.

Definition s_mem : list N := [109; 101; 109].
Definition s_shm : list N := [115; 104; 109].
Definition s_unix : list N := [117; 110; 105; 120].
