(** Shared notations and small helpers.  Nothing here models repository code
    except the two word-size constants. *)
From Coq Require Export List Arith NArith ZArith Lia Bool.
From Coq Require Export ZifyBool ZifyNat ZifyN.
Export ListNotations.

Ltac Zify.zify_post_hook ::= Z.div_mod_to_equations.

(** A byte is a number below 256; a byte string is a list of them. *)
Notation byte := N (only parsing).
Notation bytes := (list N) (only parsing).
Definition is_byte (b : byte) : Prop := (b < 256)%N.
Definition is_bytes (l : bytes) : Prop := Forall is_byte l.

(** [uint64_t] / [size_t] on the 64-bit targets: arithmetic modulo [two64]. *)
Definition two64 : N := (2 ^ 64)%N.
Definition wrap64 (n : N) : N := (n mod two64)%N.

Lemma two64_pos : (0 < two64)%N.
Proof. reflexivity. Qed.

Lemma wrap64_small n : (n < two64)%N -> wrap64 n = n.
Proof. apply N.mod_small. Qed.

Lemma nth_error_skipn_add {A} (l : list A) : forall n i, nth_error (skipn n l) i = nth_error l (n + i).
Proof.
  induction l as [|x l IH]; intros [|n] i; cbn; auto.
  destruct i; reflexivity.
Qed.
