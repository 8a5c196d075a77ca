(** C01, C02: variable-length integers. *)
From Verif Require Import Base Vint VintSpec VintProof.
Local Open Scope N_scope.

(** C01 (fits): the encoding is written at the front of the buffer, the rest of
    the buffer is untouched, and reading it back gives the same value and length
    whatever follows. *)
Theorem C01_vint_round_trip : forall v buf, v < two64 -> (vint_len v <= length buf)%nat ->
  exists enc,
    is_encoding v enc /\ is_bytes enc /\
    write_vint v buf = (vint_len v, enc ++ skipn (vint_len v) buf) /\
    forall rest, read_vint (enc ++ rest) = (v, vint_len v).
Proof.
  intros v buf Hv Hl. destruct (write_vint_fits v buf Hl) as (enc & He & Hw).
  exists enc. repeat split; try apply He; auto.
  - exact (is_encoding_bytes _ _ He).
  - intros rest. rewrite (read_encoding v enc rest Hv He). now rewrite (proj1 He).
Qed.
Print Assumptions C01_vint_round_trip.

(** C01 (does not fit): 0 is returned exactly when the buffer is too short, and
    never is a byte outside the buffer written. *)
Theorem C01_vint_too_short : forall v buf,
  (fst (write_vint v buf) = 0%nat <-> (length buf < vint_len v)%nat) /\
  length (snd (write_vint v buf)) = length buf.
Proof.
  intros v buf. destruct (Nat.ltb_spec (length buf) (vint_len v)) as [H|H].
  - destruct (write_vint_short v buf H) as (junk & H1 & ->). cbn. tauto.
  - destruct (write_vint_fits v buf H) as (enc & He & ->). cbn [fst snd].
    pose proof (vint_len_pos v). split; [lia|].
    rewrite app_length, skipn_length, (proj1 He). lia.
Qed.
Print Assumptions C01_vint_too_short.

(** C01 (length): between 1 and 10 bytes. *)
Theorem C01_vint_length : forall v, v < two64 -> (1 <= vint_len v <= 10)%nat.
Proof. intros v H. split; [apply vint_len_pos | exact (vint_len_max v H)]. Qed.
Print Assumptions C01_vint_length.

(** C01: the encoding is unique, so [is_encoding] pins down the bytes written. *)
Theorem C01_vint_injective : forall v w enc rest1 rest2 enc',
  v < two64 -> w < two64 -> is_encoding v enc -> is_encoding w enc' ->
  enc ++ rest1 = enc' ++ rest2 -> v = w.
Proof.
  intros v w enc rest1 rest2 enc' Hv Hw He He' E.
  pose proof (read_encoding v enc rest1 Hv He) as H1.
  pose proof (read_encoding w enc' rest2 Hw He') as H2.
  rewrite E, H2 in H1. now inversion H1.
Qed.
Print Assumptions C01_vint_injective.

(** C02: a strict prefix of an encoding is reported as incomplete. *)
Theorem C02_vint_truncated : forall v enc k, is_encoding v enc -> (k < length enc)%nat ->
  snd (read_vint (firstn k enc)) = 0%nat.
Proof. exact read_truncated. Qed.
Print Assumptions C02_vint_truncated.

(** C02: for arbitrary bytes, the reader reports at most what it was given, and
    its answer depends only on the bytes it reports. *)
Theorem C02_vint_reads_only_its_bytes : forall d v n,
  read_vint d = (v, n) ->
  (n <= length d)%nat /\ ((0 < n)%nat -> forall rest, read_vint (firstn n d ++ rest) = (v, n)).
Proof.
  intros d v n H. split.
  - pose proof (read_vint_bound d) as B. rewrite H in B. exact B.
  - intros Hn rest. exact (read_vint_prefix d rest v n H Hn).
Qed.
Print Assumptions C02_vint_reads_only_its_bytes.

(** Concrete cases. *)
Example C01_ex : write_vint 300 [1; 2; 3; 4] = (2%nat, [130; 44; 3; 4]) /\ (vint_len 300 <= 4)%nat.
Proof. vm_compute. auto. Qed.
Example C01_ex_max : vint_len (two64 - 1) = 10%nat /\ fst (write_vint (two64 - 1) [0; 0]) = 0%nat.
Proof. vm_compute. auto. Qed.
Example C02_ex : snd (read_vint [130]) = 0%nat /\ read_vint [130; 44; 9] = (300, 2%nat).
Proof. vm_compute. auto. Qed.
