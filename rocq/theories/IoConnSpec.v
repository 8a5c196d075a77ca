(** Specification of the life of connections, over the observable notes of IoConn.v only. *)
From Verif Require Import Base IoConn.

(** * One connection *)
(** The life of connection [c] as its user sees it.  [Alive a]: announced; [a] is the callback of
    the last disconnect asked for, if any.  [Parting]/[Parted]: the disconnected callback of the
    channel / of the connection has been called.  [Called]: so has the callback given to
    disconnect. *)
Inductive life := Unborn | Alive (a : option (option N)) | Parting (a : option N) | Parted (a : option N) | Called.
Definition failed (z : Z) : bool := negb (z =? 0)%Z.

(** What may happen next: [None] is a breach. *)
Definition live1 (c : nat) (p : life) (n : note) : option life :=
  match n with
  | NRet _ _ | NAddr _ _ | NClosed | NConn _ _ _ None => Some p
  | NConn true _ _ (Some d) => if d =? c then match p with Unborn => Some (Alive None) | _ => None end else Some p
  | NConn false _ _ (Some d) => if d =? c then match p with Unborn => None | _ => Some p end else Some p
  | NAcc b l _ co =>
      if l =? c then match p with Alive _ => Some p | _ => None end else
      match co with
      | None => Some p
      | Some d => if d =? c then match b, p with true, Unborn => Some (Alive None) | false, Alive _ => Some p | _, _ => None end else Some p
      end
  | NRecv _ d | NWrit _ d => if d =? c then match p with Alive _ => Some p | _ => None end else Some p
  | NSent d z => if d =? c then match p with Alive None => Some p | Unborn => None | _ => if failed z then Some p else None end else Some p
  | NAsk d a => if d =? c then match p with Unborn => None | Alive _ => Some (Alive (Some a)) | Parting _ => Some (Parting a) | Parted _ => Some (Parted a) | Called => Some Called end else Some p
  | NDisc true d => if d =? c then match p with Alive (Some a) => Some (Parting a) | _ => None end else Some p
  | NDisc false d => if d =? c then match p with Parting a => Some (Parted a) | _ => None end else Some p
  | NCb d k => if d =? c then match p with Parted (Some k') => if (k =? k')%N then Some Called else None | _ => None end else Some p
  end.
Definition lives (c : nat) (l : list note) : option life :=
  fold_left (fun p n => match p with Some p => live1 c p n | None => None end) l (Some Unborn).

(** * Requests *)
Definition cnt {A} (f : A -> bool) (l : list A) : nat := length (filter f l).
(** A connected callback of request [r]: of the channel ([b] = true) or of the caller. *)
Definition is_ans (b : bool) (r : nat) (n : note) : bool := match n with NConn b' r' _ _ => Bool.eqb b b' && (r =? r') | _ => false end.
Definition is_ret (r : nat) (n : note) : bool := match n with NRet r' _ => r =? r' | _ => false end.
Definition is_ret0 (r : nat) (n : note) : bool := match n with NRet r' z => (r =? r') && (z =? 0)%Z | _ => false end.

(** A connection is reported exactly with code 0. *)
Definition code_ok (n : note) : Prop :=
  match n with NConn _ _ z co | NAcc _ _ z co => z = 0%Z <-> co <> None | _ => True end.

(** The second callback that goes with a first one. *)
Definition second (n : note) : option note :=
  match n with
  | NConn true r z c => Some (NConn false r z c)
  | NAcc true l z c => Some (NAcc false l z c)
  | NDisc true c => Some (NDisc false c)
  | NRecv true c => Some (NRecv false c)
  | NWrit true c => Some (NWrit false c)
  | _ => None
  end.
Definition note_eq_dec (a b : note) : {a = b} + {a <> b}.
Proof. repeat decide equality. Defined.
