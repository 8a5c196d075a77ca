(** Specification of the stream framing and of the transport below it. *)
From Verif Require Import Base MemSpec VintSpec.
Local Open Scope N_scope.

(** [k] bytes of [v], least significant first. *)
Fixpoint little_endian (k : nat) (v : N) : bytes :=
  match k with O => [] | S k' => v mod 256 :: little_endian k' (v / 256) end.

(** A frame on the wire: a checksum field [h], the length, the payload. *)
Definition is_frame (h : N) (p w : bytes) : Prop :=
  exists enc, is_encoding (blen p) enc /\ w = little_endian 4 h ++ enc ++ p.

(** [w] is the concatenation of the frames of the items, in order. *)
Inductive is_stream : list (N * bytes) -> bytes -> Prop :=
| stream_nil : is_stream [] []
| stream_cons h p items w ws : h < 2 ^ 32 -> is_frame h p w -> is_stream items ws -> is_stream ((h, p) :: items) (w ++ ws).

(** What the receive callback is expected to say about an item: damaged, above the size
    limit (0: no limit), or good. *)
Definition damaged (hash : bytes -> N) (x : N * bytes) : bool := negb (hash (snd x) =? fst x).
Definition oversize (limit : N) (x : N * bytes) : bool := (0 <? limit) && (limit <? blen (snd x)).
Definition expected (hash : bytes -> N) (limit : N) (x : N * bytes) : Z * bytes :=
  (if damaged hash x then (-7)%Z else if oversize limit x then (-8)%Z else 0%Z, snd x).
Definition number {A} (f : A -> bool) (l : list A) : N := N.of_nat (length (filter f l)).
