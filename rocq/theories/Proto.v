(** The encoded form of data messages: include/libatbus_protocol.proto, messages
    [msg] (87-102), [msg_head] (79-85) and [forward_data] (32-38), in the proto3 wire
    format [SerializeToString] (msg_handler.cpp 403) produces: fields in the order of
    their numbers, fields with value zero left out, repeated integers packed.  The
    protobuf library itself is not part of the repository. *)
From Verif Require Import Base NodeTypes.
Local Open Scope N_scope.

(** A varint: seven bits per byte, low bits first.  Ten bytes are enough for 64 bits. *)
Fixpoint varint_go (fuel : nat) (n : N) : bytes :=
  match fuel with
  | O => [n mod 128]
  | S f => if n <? 128 then [n] else (n mod 128 + 128) :: varint_go f (n / 128)
  end.
Definition varint (n : N) : bytes := varint_go 9 (wrap64 n).
(** int32 is sign extended to 64 bits; sint32 is zigzag encoded. *)
Definition int32 (z : Z) : N := Z.to_N (z mod 2 ^ 64).
Definition sint32 (z : Z) : N := Z.to_N ((if (z <? 0)%Z then - 2 * z - 1 else 2 * z) mod 2 ^ 32).

(** Fields; the tag is [8 * number + wire type], below 128 for all fields used here. *)
Definition f_int (tag v : N) : bytes := if wrap64 v =? 0 then [] else tag :: varint v.
Definition f_bytes (tag : N) (b : bytes) : bytes := tag :: varint (N.of_nat (length b)) ++ b.
Definition f_bytes_opt (tag : N) (b : bytes) : bytes := match b with [] => [] | _ => f_bytes tag b end.

(** [msg_head] (79-85). *)
Definition enc_head (h : head) : bytes :=
  f_int 8 (int32 (h_ver h)) ++ f_int 16 (int32 (h_type h)) ++ f_int 24 (sint32 (h_ret h)) ++
  f_int 32 (h_seq h) ++ f_int 40 (h_src h).
(** [forward_data] (32-38); the flags are a uint32. *)
Definition enc_fwd (w : fwd) : bytes :=
  f_int 8 (w_from w) ++ f_int 16 (w_to w) ++ f_bytes_opt 26 (flat_map varint (w_router w)) ++
  f_bytes_opt 34 (w_content w) ++ f_int 40 (w_flags w mod 2 ^ 32).
(** [msg] (87-102) with a data request (field 13) or response (field 14). *)
Definition enc_data (h : head) (rsp : bool) (w : fwd) : bytes :=
  f_bytes 10 (enc_head h) ++ f_bytes (if rsp then 114 else 106) (enc_fwd w).
(** Other bodies are not encoded here; [other] gives their size. *)
Definition wire_size (other : msg -> N) (m : msg) : N :=
  match m_body m with BData rsp w => N.of_nat (length (enc_data (m_head m) rsp w)) | _ => other m end.
