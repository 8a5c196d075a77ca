(** What the transport below the receiver may do: it stores between one byte and the whole
    window, in stream order, and it may report empty reads or an error at any time.  Nothing
    else is assumed; in particular how the stream is cut is arbitrary. *)
From Verif Require Import Base MemSpec IoRecv.
Local Open Scope N_scope.

Fixpoint legal (cfg : rcfg) (hash : bytes -> N) (s : rx) (es : list rev) : Prop :=
  match es with
  | [] => True
  | e :: r =>
      match e with EData d _ => 0 < blen d <= win_len (rx_window s) | _ => True end /\
      match rx_step cfg hash s e with Fine (s', _) => legal cfg hash s' r | _ => True end
  end.

Definition data_of (es : list rev) : bytes := flat_map (fun e => match e with EData d _ => d | _ => [] end) es.
(** Empty reads, and increments of the shared counters by other connections. *)
Definition agains (es : list rev) : N := fold_right (fun e n => match e with EAgain => 1 | EOther a _ _ => a | _ => 0 end + n) 0 es.
Definition others_size (es : list rev) : N := fold_right (fun e n => match e with EOther _ b _ => b | _ => 0 end + n) 0 es.
Definition others_hash (es : list rev) : N := fold_right (fun e n => match e with EOther _ _ c => c | _ => 0 end + n) 0 es.
(** No read error, and every allocation succeeds. *)
Definition healthy (es : list rev) : Prop := Forall (fun e => match e with EErr => False | EData _ ok => ok = true | _ => True end) es.
