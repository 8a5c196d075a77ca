(** Connections of a stream channel (src/channel_io_stream.cpp): properties C59 - C63, about
    every history of calls, nested callbacks and completions of libuv in IoConn.v. *)
From Verif Require Import Base IoConn IoConnInv IoConnSpec IoConnAll IoConnStep IoConnEnd.
Ltac Zify.zify_post_hook ::= idtac.

(** A disconnected callback, or the callback given to disconnect, is running. *)
Definition in_end (f : frame) : bool := match f with Frame _ (JGone _ _ _) | Frame _ (JErase _ _ _) => true | _ => false end.
(** Inside such a callback no disconnect makes the table of closing connections rehash. *)
Definition no_rehash s (e : ev) : Prop :=
  match e with ADisc _ _ true | ADiscFd _ _ true => existsb in_end (stk s) = false | _ => True end.
Inductive reach : st -> Prop :=
| reach_new : reach st0
| reach_step s e s' : reach s -> no_rehash s e -> step s e = Some (Go s') -> reach s'.

Lemma no_rehash_calm s e : no_rehash s e -> calm s e.
Proof.
  assert (X : existsb in_end (stk s) = false -> gone (konts (stk s)) = []).
  { generalize (stk s). induction l as [|[m k|p g] l IH]; cbn; trivial. intros H. apply orb_false_iff in H. destruct H as [H1 H2]. destruct k; cbn in H1 |- *; try discriminate; now apply IH. }
  destruct e as [| | |c d []|f d []| | | | | | | | | |]; cbn; trivial.
Qed.
Lemma reach_inv s : reach s -> Inv s.
Proof.
  induction 1 as [|s e s' R IH N E]; [apply inv0|]. destruct (step_inv s e _ IH (no_rehash_calm _ _ N) E) as [(t & X & Y)|(X & _)]; [now injection X as ->|discriminate].
Qed.
Lemma run_reach es s s' : reach s -> (forall e, In e es -> forall c f d, e <> ADisc c d true /\ e <> ADiscFd f d true) -> run es s = Some (Go s') -> reach s'.
Proof.
  revert s. induction es as [|e es IH]; intros s R N; cbn; [intros E; now injection E as <-|]. destruct (step s e) as [[s1| |]|] eqn:E; try discriminate. apply IH.
  - apply (reach_step s e); trivial. destruct e as [| | |c d []|f d []| | | | | | | | | |]; cbn; trivial; exfalso; destruct (N _ (or_introl eq_refl) 0 0%N d) as [_ _]; [now destruct (N _ (or_introl eq_refl) c 0%N d)|now destruct (N _ (or_introl eq_refl) 0 f d)].
  - intros x I. apply N. now right.
Qed.

(** * C59: requests *)
Lemma cnt_le {A} (f g : A -> bool) l : (forall x, f x = true -> g x = true) -> cnt f l <= cnt g l.
Proof. intros H. induction l as [|x l IH]; trivial. rewrite !cnt_cons. specialize (H x). destruct (f x); [rewrite H by trivial; lia|destruct (g x); lia]. Qed.
Lemma cnt_in {A} (f : A -> bool) x l : In x l -> f x = true -> 0 < cnt f l.
Proof. intros I E. induction l as [|y l IH]; [destruct I|]. rewrite cnt_cons. destruct I as [->|I]; [rewrite E; lia|apply IH in I; lia]. Qed.

(** A request is answered at most once at each level (channel, caller), and returns at most once. *)
Theorem C59_at_most_once s r b : reach s -> cnt (is_ans b r) (log s) <= 1 /\ cnt (is_ret r) (log s) <= 1.
Proof.
  intros R. destruct (reach_inv s R) as [_ L]. pose proof (i_ans _ _ L r b) as A. pose proof (i_ret _ _ L r) as B. rewrite cnt_app in A.
  assert (C : cnt (is_ret0 r) (log s) <= cnt (is_ret r) (log s)) by (apply cnt_le; intros []; cbn; trivial; intros X; now apply andb_true_iff in X).
  destruct (r <? nr s); lia.
Qed.
(** A refused request is never answered. *)
Theorem C59_refused s r z b : reach s -> In (NRet r z) (log s) -> z <> 0%Z -> cnt (is_ans b r) (log s) = 0.
Proof.
  intros R I Z. destruct (reach_inv s R) as [_ L]. pose proof (i_ans _ _ L r b) as A. pose proof (i_ret _ _ L r) as B. rewrite cnt_app in A.
  assert (C : cnt (is_ret0 r) (log s) < cnt (is_ret r) (log s)).
  { clear A B L. revert I. induction (log s) as [|n l IH]; intros I; [destruct I|]. rewrite !cnt_cons. assert (Y : cnt (is_ret0 r) l <= cnt (is_ret r) l) by (apply cnt_le; intros []; cbn; trivial; intros X; now apply andb_true_iff in X).
    destruct I as [->|I]; [unfold is_ret0 at 1, is_ret at 1; rewrite Nat.eqb_refl; apply Z.eqb_neq in Z; rewrite Z; cbn [andb]; lia|]. apply IH in I. assert (X : is_ret0 r n = true -> is_ret r n = true) by (destruct n; cbn; trivial; intros X; now apply andb_true_iff in X). destruct (is_ret0 r n), (is_ret r n); lia. }
  destruct (r <? nr s); lia.
Qed.
(** An accepted request is answered exactly once at each level, unless libuv still works on it
    or its callbacks are being called. *)
Theorem C59_accepted s r b : reach s -> In (NRet r 0%Z) (log s) -> pend s = [] -> stk s = [] -> cnt (is_ans b r) (log s) = 1.
Proof.
  intros R I P S. destruct (reach_inv s R) as [_ L]. pose proof (i_ans _ _ L r b) as A. pose proof (i_ret _ _ L r) as B. rewrite S in A, B. unfold outs, jret in A. unfold jret in B. rewrite P, !cnt_nil in A. rewrite cnt_nil in B. cbn [rests flat_map] in A. rewrite app_nil_r in A.
  assert (C : cnt (is_ret0 r) (log s) <= cnt (is_ret r) (log s)) by (apply cnt_le; intros []; cbn; trivial; intros X; now apply andb_true_iff in X).
  assert (D : 0 < cnt (is_ret0 r) (log s)) by (apply (cnt_in _ (NRet r 0%Z)); trivial; cbn; now rewrite Nat.eqb_refl). destruct (r <? nr s); lia.
Qed.
(** ... and one that is neither answered nor in a callback has its request with libuv. *)
Theorem C59_outstanding s r b : reach s -> In (NRet r 0%Z) (log s) -> stk s = [] -> cnt (is_ans b r) (log s) = 0 -> exists a, (In (PConn a) (pend s) \/ In (PDns a) (pend s)) /\ a_req (az s a) = r.
Proof.
  intros R I S Z. destruct (reach_inv s R) as [_ L]. pose proof (i_ans _ _ L r b) as A. rewrite S in A. unfold jret in A. rewrite cnt_nil in A. cbn [rests flat_map] in A. rewrite app_nil_r, Z in A.
  assert (D : 0 < cnt (is_ret0 r) (log s)) by (apply (cnt_in _ (NRet r 0%Z)); trivial; cbn; now rewrite Nat.eqb_refl). unfold outs in A.
  assert (O : 0 < cnt (fun p => match p with PConn a | PDns a => a_req (az s a) =? r | PWrite _ => false end) (pend s)) by lia. clear A.
  induction (pend s) as [|p l IH]; [cbn in O; lia|]. rewrite cnt_cons in O. destruct (match p with PConn a | PDns a => a_req (az s a) =? r | PWrite _ => false end) eqn:E.
  - destruct p as [a|a|c]; [exists a; split; [left; now left|now apply Nat.eqb_eq]|exists a; split; [right; now left|now apply Nat.eqb_eq]|discriminate].
  - destruct IH as (a & [X|X] & Y); [lia|exists a|exists a]; split; trivial; [left|right]; now right.
Qed.
(** A connection comes with code 0 and an error without one; each callback of the channel has
    its counterpart of the caller or connection. *)
Theorem C59_codes s n : reach s -> In n (log s) -> code_ok n.
Proof. intros R I. destruct (reach_inv s R) as [_ L]. apply (i_code _ _ L). apply in_app_iff. now left. Qed.
Theorem C59_both_levels s n m : reach s -> stk s = [] -> second n = Some m -> count_occ note_eq_dec (log s) n = count_occ note_eq_dec (log s) m.
Proof. intros R S E. destruct (reach_inv s R) as [_ L]. pose proof (i_twin _ _ L n m E) as X. rewrite S in X. cbn in X. now rewrite app_nil_r in X. Qed.
Print Assumptions C59_at_most_once.
Print Assumptions C59_refused.
Print Assumptions C59_accepted.
Print Assumptions C59_outstanding.
Print Assumptions C59_codes.
Print Assumptions C59_both_levels.

(** * C60: life of a connection *)
(** The callbacks of every connection follow the order given in IoConnSpec.v. *)
Theorem C60_life s c : reach s -> lives c (log s) <> None.
Proof. intros R. destruct (reach_inv s R) as [_ L]. exact (lok_some s c _ (i_life _ _ L c)). Qed.
(** The caller's connected callback finds the connection alive, unless listen itself, before it
    returns, makes that callback. *)
Theorem C60_connected_alive_partial s x r z c y : reach s -> log s = x ++ NConn false r z (Some c) :: y -> In (NRet r 0%Z) x -> exists a, lives c x = Some (Alive a).
Proof.
  intros R E I. destruct (reach_inv s R) as [_ L]. destruct (i_late _ _ L x r z c y E) as [X|X]; trivial. exfalso.
  assert (0 < cnt (is_ret r) x); [|lia]. apply (cnt_in _ (NRet r 0%Z)); trivial. cbn. now rewrite Nat.eqb_refl.
Qed.
(** Where the user may touch a connection: exactly the connections announced and not released. *)
Theorem C60_usable s c : reach s -> stk s = [] -> (k_live (cs s c) = true <-> exists a, lives c (log s) = Some (Alive a)).
Proof.
  intros R S. destruct (reach_inv s R) as [F L]. rewrite S in *. pose proof (i_life _ _ L c) as X. unfold lok in X. split.
  - intros V. rewrite (proj2 (Nat.ltb_lt _ _) (full_live _ _ _ F V)), V in X. destruct (k_st (cs s c)) eqn:T; [eauto|eauto|].
    exfalso. pose proof (f_core _ _ F) as C. destruct (l_c _ _ _ _ _ C c V) as (_ & [I|I]); [apply (p_c _ _ _ _ _ C) in I; destruct I as (_ & _ & _ & _ & _ & _ & [Y|[Y _]]); congruence|]. apply (g_c _ _ _ _ _ C) in I. destruct I as (_ & _ & _ & _ & [[Y _]|(_ & _ & [])]). congruence.
  - intros (a & E). rewrite E in X. destruct (c <? nc s); [|discriminate]. destruct (k_live (cs s c)); trivial. destruct X; discriminate.
Qed.
Print Assumptions C60_life.
Print Assumptions C60_connected_alive_partial.
Print Assumptions C60_usable.

(** * C61: no failure *)
(** No assertion of the channel fails, libuv is never asked to close a handle twice, nothing is
    used after its release, no handle is released before libuv is done with it. *)
Theorem C61_safe s e x : reach s -> no_rehash s e -> step s e <> Some (Crash x).
Proof. intros R N E. destruct (step_inv s e _ (reach_inv _ R) (no_rehash_calm _ _ N) E) as [(t & X & _)|(X & _)]; discriminate. Qed.
(** The process is aborted exactly by a close inside a callback made from the event loop. *)
Theorem C61_abort s e : reach s -> no_rehash s e -> (step s e = Some Aborted <-> e = AClose /\ in_loop s = true).
Proof.
  intros R N. destruct (reach_inv s R) as [F L]. pose proof (i_cb _ _ L) as Cb. fold (in_loop s) in Cb. split.
  - intros E. destruct (step_inv s e _ (conj F L) (no_rehash_calm _ _ N) E) as [(t & X & _)|(_ & X & Y)]; [discriminate|]. split; congruence.
  - intros (-> & I). cbn. assert (user_turn s = true) as ->.
    { unfold user_turn. unfold in_loop in I. destruct (stk s) as [|[l k|p g] t]; trivial. destruct (wait_top _ _ _ _ L) as (X & _). cbn in I. congruence. }
    unfold close. change (cb (set_cl true s)) with (cb s). now rewrite Cb, I.
Qed.
Print Assumptions C61_safe.
Print Assumptions C61_abort.

(** * C62: close *)
(** When [io_stream_close] returns, every connection ever announced has had its disconnected
    callbacks, the last one asked for included, and is released; no request is left with libuv
    and no handle is open. *)
Theorem C62_settled s s' : reach s -> step s LWake = Some (Go s') -> log s' = log s ++ [NClosed] ->
  (forall c, k_live (cs s' c) = false /\ (c < nc s' -> lives c (log s') = Some (Parted None) \/ lives c (log s') = Some Called)) /\
  pool s' = [] /\ gc s' = [] /\ pend s' = [] /\ reqs s' = 0 /\ forall h, h_st (hs s' h) <> HOpen.
Proof.
  intros R E N. pose proof (reach_inv s R) as [F L]. assert (R' : reach s') by (apply (reach_step s LWake); trivial; exact Logic.I). pose proof (reach_inv s' R') as [F' L'].
  assert (P : lp s' = false).
  { cbn [step] in E. unfold wake in E. destruct (stk s) as [|[|p g] t] eqn:S; try discriminate. destruct p.
    - destruct (_ && _); [|destruct (lp s); discriminate]. injection E as <-. exfalso. cbn in N. rewrite <- (app_nil_r (log s)) in N at 1. now apply app_inv_head in N.
    - destruct (_ =? 0); [|destruct (lp s); discriminate]. injection E as <-. destruct g; reflexivity.
    - destruct (own_done s); [|discriminate]. injection E as <-. destruct g; reflexivity. }
  assert (D : forall c, k_live (cs s' c) = false) by (intros c; destruct (k_live (cs s' c)) eqn:V; trivial; rewrite (live_lp _ _ _ _ F' L' V) in P; discriminate).
  pose proof (f_core _ _ F') as C. pose proof (i_lp _ _ L' P) as Pe. split; [|split; [|split; [|split; [|split]]]].
  - intros c. split; [apply D|]. intros Nc. pose proof (i_life _ _ L' c) as X. unfold lok in X. now rewrite (proj2 (Nat.ltb_lt _ _) Nc), D in X.
  - destruct (pool s') as [|[f c] l] eqn:X; trivial. assert (I : In (f, c) (pool s')) by (rewrite X; now left). apply (p_c _ _ _ _ _ C) in I. now rewrite D in I.
  - destruct (gc s') as [|[f c] l] eqn:X; trivial. assert (I : In (f, c) (gc s')) by (rewrite X; now left). apply (g_c _ _ _ _ _ C) in I. now rewrite D in I.
  - exact Pe.
  - now rewrite (n_req _ _ _ _ _ C), Pe.
  - intros h X. destruct (i_own _ _ L' h) as [Y _]; [unfold hold; now rewrite X|]. congruence.
Qed.
(** While close waits it is never stuck: the wait is over, or libuv has a completion to deliver
    (of a connect, a name resolution, a write, or the close of a handle). *)
Theorem C62_progress s p g t : reach s -> stk s = Wait p g :: t -> (exists s', step s LWake = Some (Go s')) \/ exists e s', completes e = 1 /\ step s e = Some (Go s').
Proof. intros R. apply close_progress. now apply reach_inv. Qed.
(** Events [es] lead from [s] to [s'], the channel closing all the time. *)
Inductive closing : st -> list ev -> st -> Prop :=
| closing_nil s : closing s [] s
| closing_cons s e s1 es s' : cl s = true -> no_rehash s e -> step s e = Some (Go s1) -> closing s1 es s' -> closing s (e :: es) s'.
(** Only so many completions are delivered before it returns, whatever callbacks do; an
    incoming connection on a listener that is being written to adds two. *)
Theorem C62_bounded s : reach s -> exists n, forall es s', closing s es s' -> list_sum (map completes es) <= n + 2 * list_sum (map accepts es).
Proof.
  intros R. exists (weight s). intros es s' H. assert (X : list_sum (map completes es) + weight s' <= weight s + 2 * list_sum (map accepts es)); [|lia].
  induction H as [s|s e s1 es s' C N E H IH]; [cbn; lia|]. specialize (IH (reach_step _ _ _ R N E)). pose proof (close_weight s e s1 (reach_inv _ R) C E). cbn [map list_sum fold_right]. change (fold_right Init.Nat.add 0) with list_sum. lia.
Qed.
Print Assumptions C62_settled.
Print Assumptions C62_progress.
Print Assumptions C62_bounded.

(** * C63: the callback given to disconnect *)
Definition asks (c : nat) (n : note) : bool := match n with NAsk d _ => d =? c | _ => false end.
(** [d] is what the last disconnect of [c] in [l] asked for. *)
Definition last_ask c l (d : option N) : Prop := exists u v, l = u ++ NAsk c d :: v /\ existsb (asks c) v = false.
Definition no_cb c (l : list note) : Prop := forall k, ~ In (NCb c k) l.
Definition facts c l (p : life) : Prop :=
  match p with
  | Unborn | Alive None => no_cb c l /\ (forall b, ~ In (NDisc b c) l)
  | Alive (Some a) => no_cb c l /\ (forall b, ~ In (NDisc b c) l) /\ last_ask c l a
  | Parting a => no_cb c l /\ In (NDisc true c) l /\ ~ In (NDisc false c) l /\ last_ask c l a
  | Parted a => no_cb c l /\ In (NDisc true c) l /\ In (NDisc false c) l /\ last_ask c l a
  | Called => exists k x y, l = x ++ NCb c k :: y /\ last_ask c x (Some k) /\ In (NDisc true c) x /\ In (NDisc false c) x /\ no_cb c x /\ no_cb c y
  end.
Lemma last_snoc c l d n : asks c n = false -> last_ask c l d -> last_ask c (l ++ [n]) d.
Proof. intros A (u & v & -> & E). exists u, (v ++ [n]). split; [now rewrite <- app_assoc|]. rewrite existsb_app, E. cbn. now rewrite A. Qed.
Lemma last_here c l d : last_ask c (l ++ [NAsk c d]) d.
Proof. exists l, []. now split. Qed.
Lemma no_cb_snoc c l n : (forall k, n <> NCb c k) -> no_cb c l -> no_cb c (l ++ [n]).
Proof. intros A H k I. apply in_app_iff in I. destruct I as [I|[I|[]]]; [now apply (H k)|now apply (A k)]. Qed.
Lemma not_snoc {A} (x n : A) l : x <> n -> ~ In x l -> ~ In x (l ++ [n]).
Proof. intros D H I. apply in_app_iff in I. destruct I as [I|[I|[]]]; auto. Qed.
Lemma in_snoc {A} (x n : A) l : In x l -> In x (l ++ [n]).
Proof. intros I. apply in_app_iff. now left. Qed.
Lemma facts_other c l p n : asks c n = false -> (forall k, n <> NCb c k) -> (forall b, n <> NDisc b c) -> facts c l p -> facts c (l ++ [n]) p.
Proof.
  intros A B D. assert (D' : forall b, NDisc b c <> n) by (intros b X; now apply (D b)).
  destruct p as [|[a|]|a|a|]; cbn.
  - intros (H1 & H2). split; [now apply no_cb_snoc|]. intros b. now apply not_snoc.
  - intros (H1 & H2 & H3). split; [now apply no_cb_snoc|]. split; [intros b; now apply not_snoc|now apply last_snoc].
  - intros (H1 & H2). split; [now apply no_cb_snoc|]. intros b. now apply not_snoc.
  - intros (H1 & H2 & H3 & H4). split; [now apply no_cb_snoc|]. split; [now apply in_snoc|]. split; [now apply not_snoc|now apply last_snoc].
  - intros (H1 & H2 & H3 & H4). split; [now apply no_cb_snoc|]. split; [now apply in_snoc|]. split; [now apply in_snoc|now apply last_snoc].
  - intros (k & x & y & -> & H1 & H2 & H3 & H4 & H5). exists k, x, (y ++ [n]). split; [now rewrite <- app_assoc|]. split; [exact H1|]. split; [exact H2|]. split; [exact H3|]. split; [exact H4|now apply no_cb_snoc].
Qed.
Lemma lives_facts c l p : lives c l = Some p -> facts c l p.
Proof.
  revert p. induction l as [|n l IH] using rev_ind; intros p.
  - intros E. injection E as <-. split; [intros k []|intros b []].
  - rewrite lives_snoc. destruct (lives c l) as [q|]; [|discriminate]. specialize (IH q eq_refl). intros E.
    assert (Same : q = p -> asks c n = false -> (forall k, n <> NCb c k) -> (forall b, n <> NDisc b c) -> facts c (l ++ [n]) p) by (intros ->; intros; now apply facts_other).
    destruct (about c n) eqn:B.
    2:{ rewrite live1_about in E by trivial. apply Same; [congruence|destruct n; trivial|intros k ->; cbn in B; now rewrite Nat.eqb_refl in B|intros b ->; cbn in B; now rewrite Nat.eqb_refl in B]. }
    assert (Keep : asks c n = false -> (forall k, n <> NCb c k) -> (forall b, n <> NDisc b c) -> q = p \/ q = Unborn /\ p = Alive None -> facts c (l ++ [n]) p).
    { intros A1 A2 A3 [M|[-> ->]]; [now apply Same|]. now apply (facts_other c l Unborn). }
    destruct n as [r z|r i|b r z [d|]|b m z co|b d|d a|d k|b d|b d|d z|]; cbn in B; try discriminate.
    + apply Nat.eqb_eq in B as ->. apply Keep; try discriminate; trivial. destruct b; cbn in E; rewrite Nat.eqb_refl in E; destruct q; try discriminate; injection E as <-; auto.
    + apply Keep; try discriminate; trivial. cbn in E. destruct (m =? c); [destruct q; try discriminate; injection E as <-; auto|]. destruct co as [d|]; [|discriminate]. cbn in B. rewrite B in E. destruct b, q; try discriminate; injection E as <-; auto.
    + apply Nat.eqb_eq in B as ->. destruct b; cbn in E; rewrite Nat.eqb_refl in E; destruct q as [|[a|]|a|a|]; try discriminate; injection E as <-; cbn in IH |- *.
      * destruct IH as (H1 & H2 & H3). split; [now apply no_cb_snoc|]. split; [apply in_app_iff; right; now left|]. split; [apply not_snoc; [discriminate|apply H2]|now apply last_snoc].
      * destruct IH as (H1 & H2 & H3 & H4). split; [now apply no_cb_snoc|]. split; [now apply in_snoc|]. split; [apply in_app_iff; right; now left|now apply last_snoc].
    + apply Nat.eqb_eq in B as ->. cbn in E. rewrite Nat.eqb_refl in E. destruct q as [|[b|]|b|b|]; try discriminate; injection E as <-; cbn in IH |- *.
      * destruct IH as (H1 & H2 & H3). split; [now apply no_cb_snoc|]. split; [intros x; apply not_snoc; [discriminate|apply H2]|apply last_here].
      * destruct IH as (H1 & H2). split; [now apply no_cb_snoc|]. split; [intros x; apply not_snoc; [discriminate|apply H2]|apply last_here].
      * destruct IH as (H1 & H2 & H3 & H4). split; [now apply no_cb_snoc|]. split; [now apply in_snoc|]. split; [now apply not_snoc|apply last_here].
      * destruct IH as (H1 & H2 & H3 & H4). split; [now apply no_cb_snoc|]. split; [now apply in_snoc|]. split; [now apply in_snoc|apply last_here].
      * destruct IH as (k & x & y & -> & H1 & H2 & H3 & H4 & H5). exists k, x, (y ++ [NAsk c a]). split; [now rewrite <- app_assoc|]. split; [exact H1|]. split; [exact H2|]. split; [exact H3|]. split; [exact H4|now apply no_cb_snoc].
    + apply Nat.eqb_eq in B as ->. cbn in E. rewrite Nat.eqb_refl in E. destruct q as [|[b|]|b|[b|]|]; try discriminate. destruct (N.eqb_spec k b) as [->|]; [|discriminate]. injection E as <-. destruct IH as (H1 & H2 & H3 & H4).
      exists b, l, []. split; [reflexivity|]. split; [exact H4|]. split; [exact H2|]. split; [exact H3|]. split; [exact H1|]. intros j [].
    + apply Nat.eqb_eq in B as ->. apply Keep; try discriminate; trivial. cbn in E. rewrite Nat.eqb_refl in E. destruct q; try discriminate; injection E as <-; auto.
    + apply Nat.eqb_eq in B as ->. apply Keep; try discriminate; trivial. cbn in E. rewrite Nat.eqb_refl in E. destruct q; try discriminate; injection E as <-; auto.
    + apply Nat.eqb_eq in B as ->. apply Keep; try discriminate; trivial. cbn in E. rewrite Nat.eqb_refl in E. destruct q as [|[a|]|a|a|]; try discriminate; try (destruct (failed z); [|discriminate]); injection E as <-; auto.
Qed.

(** The callback is called at most once, after both disconnected callbacks, and it is the one
    given to the last disconnect. *)
Theorem C63_called_right s c k x y : reach s -> log s = x ++ NCb c k :: y ->
  last_ask c x (Some k) /\ In (NDisc true c) x /\ In (NDisc false c) x /\ no_cb c x /\ no_cb c y.
Proof.
  intros R E. destruct (reach_inv s R) as [_ L]. pose proof (lok_some s c _ (i_life _ _ L c)) as N. destruct (lives c (log s)) as [p|] eqn:El; [|congruence]. apply lives_facts in El. rewrite E in El.
  assert (I : In (NCb c k) (x ++ NCb c k :: y)) by (apply in_app_iff; right; now left).
  destruct p as [|[a|]|a|a|]; cbn in El; try (exfalso; destruct El as (El & _); now apply (El k)).
  destruct El as (j & u & v & Q & H1 & H2 & H3 & H4 & H5).
  assert (x = u /\ k = j /\ y = v) as (-> & -> & ->); [|auto].
  clear -Q H4 H5. assert (G : forall x u, x ++ NCb c k :: y = u ++ NCb c j :: v -> no_cb c u -> no_cb c v -> x = u /\ k = j /\ y = v); [|now apply G].
  clear. intros x. induction x as [|m x IH]; intros [|n u] E Hu Hv; cbn in E.
  - injection E as -> ->. auto.
  - injection E as <- _. exfalso. apply (Hu k). now left.
  - injection E as -> E. exfalso. apply (Hv k). rewrite <- E. apply in_app_iff. right. now left.
  - injection E as -> E. destruct (IH u E) as (-> & -> & ->); auto. intros a I. apply (Hu a). now right.
Qed.
(** Once the connection is gone and its callbacks have returned, the callback has been called,
    unless the last disconnect came without one. *)
Theorem C63_called s c : reach s -> stk s = [] -> In (NDisc true c) (log s) -> (exists k, In (NCb c k) (log s)) \/ last_ask c (log s) None.
Proof.
  intros R S I. destruct (reach_inv s R) as [F L]. rewrite S in *. pose proof (i_life _ _ L c) as X. pose proof (lok_some s c _ X) as N. destruct (lives c (log s)) as [p|] eqn:El; [|congruence]. apply lives_facts in El.
  destruct p as [|[a|]|a|a|]; cbn in El.
  - exfalso. destruct El as [_ El]. now apply (El true).
  - exfalso. destruct El as (_ & El & _). now apply (El true).
  - exfalso. destruct El as (_ & El). now apply (El true).
  - exfalso. assert (Y : k_live (cs s c) = true /\ k_st (cs s c) = Disconnected).
    { unfold lok in X. destruct (c <? nc s); [|discriminate]. destruct (k_live (cs s c)); [|destruct X; discriminate]. destruct (k_st (cs s c)); try discriminate. auto. }
    destruct Y as [V T]. pose proof (f_core _ _ F) as C. destruct (l_c _ _ _ _ _ C c V) as (_ & [J|J]); [apply (p_c _ _ _ _ _ C) in J; destruct J as (_ & _ & _ & _ & _ & _ & [Y|[Y _]]); congruence|]. apply (g_c _ _ _ _ _ C) in J. destruct J as (_ & _ & _ & _ & [[Y _]|(_ & _ & [])]). congruence.
  - right. assert (Y : a = None); [|subst; apply El]. unfold lok in X. destruct (c <? nc s); [|discriminate]. destruct (k_live (cs s c)) eqn:V; [|destruct X as [X|X]; [congruence|discriminate]]. exfalso. destruct (k_st (cs s c)) eqn:T; try discriminate.
    pose proof (f_core _ _ F) as C. destruct (l_c _ _ _ _ _ C c V) as (_ & [J|J]); [apply (p_c _ _ _ _ _ C) in J; destruct J as (_ & _ & _ & _ & _ & _ & [Y|[Y _]]); congruence|]. apply (g_c _ _ _ _ _ C) in J. destruct J as (_ & _ & _ & _ & [[Y _]|(_ & _ & [])]). congruence.
  - left. destruct El as (k & x & y & -> & _). exists k. apply in_app_iff. right. now left.
Qed.
Print Assumptions C63_called_right.
Print Assumptions C63_called.

(** * Histories *)
Definition gentle (e : ev) : bool := match e with ADisc _ _ true | ADiscFd _ _ true => false | _ => true end.
Lemma history {A} (f : st -> A) es v : forallb gentle es = true -> match run es st0 with Some (Go s) => Some (f s) | _ => None end = Some v -> exists s, reach s /\ f s = v.
Proof.
  intros G E. destruct (run es st0) as [[s| |]|] eqn:X; try discriminate. injection E as E. exists s. split; trivial. apply (run_reach es st0); trivial; [constructor|].
  rewrite forallb_forall in G. intros e I c f' d. specialize (G e I). split; intros ->; discriminate.
Qed.
Definition sysok (f : N) : sys := {| o_mem := true; o_bind := true; o_listen := true; o_start := true; o_file := Some f |}.
Definition w1 : wro := {| o_merge := 0; o_write := true |}.
Definition w2 : wro := {| o_merge := 5; o_write := true |}.
Definition ret2 : list ev := [AReturn w1; AReturn w1].

(** Listen, accept, write, disconnect with a callback during the write, connect by name, close:
    every request is answered, every connection ends, close returns. *)
Definition busy : list ev :=
  [AInit true; AListen (TTcp (Some 7%N)) (sysok 5)] ++ ret2 ++ [LAccept 0 true true (Some 6%N)] ++ ret2 ++
  [AConnect TName (sysok 7); AConnect TOther (sysok 7); ASend 1 SMsg w1; ASend 1 SMsg w1; ADisc 1 (Some 9%N) false; LName 0 (Some 3%N) (sysok 7); LConn 1 true (Some 7%N)] ++ ret2 ++ [LRead 2 (RData 2 false)] ++ ret2 ++ ret2 ++
  [LWrit 1 w1] ++ ret2 ++ [LWrit 1 w1] ++ ret2 ++ [LClosed 1] ++ ret2 ++ [AReturn w1].
Definition busy_log : list note :=
  [NAddr 0 7; NConn true 0 0 (Some 0); NConn false 0 0 (Some 0); NRet 0 0; NAcc true 0 0 (Some 1); NAcc false 0 0 (Some 1); NRet 1 0; NRet 2 E_NOT_SUPPORT; NSent 1 0; NSent 1 0; NAsk 1 (Some 9%N); NAddr 1 3;
   NConn true 1 0 (Some 2); NConn false 1 0 (Some 2); NRecv true 2; NRecv false 2; NRecv true 2; NRecv false 2; NWrit true 1; NWrit false 1; NWrit true 1; NWrit false 1; NDisc true 1; NDisc false 1; NCb 1 9].
Example busy_ok : exists s, reach s /\ (stk s, pend s, nc s, log s) = ([], [], 3, busy_log) /\ (lives 0 (log s), lives 1 (log s), lives 2 (log s)) = (Some (Alive None), Some Called, Some (Alive None)).
Proof.
  destruct (history (fun s => (stk s, pend s, nc s, log s)) busy ([], [], 3, busy_log) eq_refl ltac:(vm_compute; reflexivity)) as (s & R & E). exists s. split; [exact R|]. split; [exact E|]. injection E as _ _ _ ->. reflexivity.
Qed.
Definition shut : list ev := busy ++ [AClose; LClosed 0] ++ ret2 ++ [LClosed 2] ++ ret2 ++ [LWake].
Lemma wait_req s t : stk s = Wait WReq true :: t -> reqs s = 0 -> step s LWake = Some (Go (finish true (set_stk t s))).
Proof. intros E Q. cbn. unfold wake. now rewrite E, Q. Qed.
Example closed_ok : exists s s', reach s /\ step s LWake = Some (Go s') /\ log s' = log s ++ [NClosed] /\ nc s' = 3.
Proof.
  destruct (history (fun s => (stk s, reqs s, nc s)) shut ([Wait WReq true], 0, 3) eq_refl ltac:(vm_compute; reflexivity)) as (s & R & E). injection E as E1 E2 E3.
  exists s. eexists. split; [exact R|]. split; [now apply (wait_req s [])|]. split; [reflexivity|exact E3].
Qed.
(** The hypotheses of the theorems above meet in these histories. *)
Example C59_cases : exists s, reach s /\ stk s = [] /\ pend s = [] /\ In (NRet 1 0%Z) (log s) /\ In (NRet 2 E_NOT_SUPPORT) (log s) /\ cnt (is_ans false 1) (log s) = 1 /\ cnt (is_ans true 2) (log s) = 0 /\
  In (NDisc true 1) (log s) /\ log s = firstn 24 busy_log ++ NCb 1 9%N :: [].
Proof. destruct busy_ok as (s & R & E & _). exists s. injection E as E1 E2 E3 E4. rewrite E1, E2, E4. split; [exact R|]. repeat (split; [vm_compute; tauto|]). reflexivity. Qed.
Example C59_waiting : exists s, reach s /\ stk s = [] /\ In (NRet 0 0%Z) (log s) /\ cnt (is_ans true 0) (log s) = 0.
Proof. destruct (history (fun s => (stk s, log s)) [AInit true; AConnect TName (sysok 7)] ([], [NRet 0 0%Z]) eq_refl ltac:(vm_compute; reflexivity)) as (s & R & E). injection E as E1 E2. exists s. rewrite E1, E2. repeat split; trivial. now left. Qed.
Example C61_inside : exists s, reach s /\ in_loop s = true.
Proof. destruct (history in_loop ([AInit true; AListen (TTcp (Some 7%N)) (sysok 5)] ++ ret2 ++ [LAccept 0 true true (Some 6%N)]) true eq_refl ltac:(vm_compute; reflexivity)) as (s & R & E). eauto. Qed.
Example C62_waiting : exists s, reach s /\ stk s = [Wait WPool true] /\ cl s = true /\ gc s <> [].
Proof. destruct (history (fun s => (stk s, cl s, length (gc s))) (busy ++ [AClose]) ([Wait WPool true], true, 2) eq_refl ltac:(vm_compute; reflexivity)) as (s & R & E). injection E as E1 E2 E3. exists s. repeat split; trivial. intros X. rewrite X in E3. discriminate. Qed.

(** * What does not hold *)
(** Close inside the first connected callback of listen: the caller gets its connected callback,
    with code 0, for a connection that is gone, after close has returned. *)
Theorem C60_late_connected_refuted : exists s x y r c, reach s /\ log s = x ++ NConn false r 0%Z (Some c) :: y /\ In (NDisc false c) x /\ In NClosed x.
Proof.
  destruct (history log ([AInit true; AListen (TTcp (Some 7%N)) (sysok 5); AClose; LClosed 0] ++ ret2 ++ [LWake; LWake; AReturn w1])
    ([NAddr 0 7; NConn true 0 0 (Some 0); NAsk 0 None; NDisc true 0; NDisc false 0; NClosed] ++ [NConn false 0 0 (Some 0)]) eq_refl ltac:(vm_compute; reflexivity)) as (s & R & E).
  exists s. do 4 eexists. split; [exact R|]. split; [exact E|]. vm_compute. tauto.
Qed.
(** Data read together with other data is delivered after the user has disconnected. *)
Theorem C60_received_after_disconnect_refuted : exists s x y z c k, reach s /\ log s = x ++ NAsk c (Some k) :: y ++ NRecv true c :: z.
Proof.
  destruct (history log ([AInit true; AConnect (TTcp (Some 7%N)) (sysok 5); LConn 0 true (Some 5%N)] ++ ret2 ++ [LRead 0 (RData 2 false); ADisc 0 (Some 9%N) false] ++ ret2)
    ([NAddr 0 7; NRet 0 0; NConn true 0 0 (Some 0); NConn false 0 0 (Some 0); NRecv true 0] ++ NAsk 0 (Some 9%N) :: [NRecv false 0] ++ NRecv true 0 :: []) eq_refl ltac:(vm_compute; reflexivity)) as (s & R & E).
  exists s. do 5 eexists. split; [exact R|]. exact E.
Qed.
(** Disconnecting another connection inside a disconnected callback, when the insertion makes
    the table of closing connections rehash: the iterator kept across the callback is erased. *)
Theorem C61_rehash_refuted : exists es, run es st0 = Some (Crash XIter).
Proof.
  exists ([AInit true; AConnect (TTcp (Some 7%N)) (sysok 5); AConnect (TTcp (Some 8%N)) (sysok 6); LConn 0 true (Some 5%N)] ++ ret2 ++ [LConn 1 true (Some 6%N)] ++ ret2 ++ [ADisc 0 None false; LClosed 0; ADisc 1 None true] ++ ret2).
  vm_compute. reflexivity.
Qed.
(** Close waits for a peer: nothing is left but a write the peer does not read. *)
Theorem C62_waits_for_peer_refuted : exists s c, reach s /\ stk s = [Wait WPool true] /\ step s LWake = None /\ pend s = [PWrite c] /\ (forall h w, h_st (hs s h) <> HClosing w).
Proof.
  destruct (history (fun s => (stk s, match step s LWake with None => true | _ => false end, pend s, nh s, h_st (hs s 0))) ([AInit true; AConnect (TTcp (Some 7%N)) (sysok 5); LConn 0 true (Some 5%N)] ++ ret2 ++ [ASend 0 SMsg w1; AClose])
    ([Wait WPool true], true, [PWrite 0], 1, HOpen) eq_refl ltac:(vm_compute; reflexivity)) as (s & R & E). pose proof (f_equal (fun p => snd (fst (fst (fst p)))) E) as E2'. cbv beta iota delta [fst snd] in E2'. injection E as E1 _ E3 E4 E5.
  exists s, 0. split; [exact R|]. split; [exact E1|]. split; [destruct (step s LWake); [discriminate E2'|reflexivity]|]. split; [exact E3|]. intros h w X. destruct (reach_inv s R) as [F _]. destruct h as [|h]; [congruence|].
  rewrite (h_out _ _ _ _ _ (f_core _ _ F)) in X by lia. discriminate.
Qed.
(** A callback that was accepted is dropped: by close, by a second disconnect, by a read error
    during the flush, and when it is given inside the callback of the first one. *)
Theorem C63_close_drops_callback_refuted : exists s c k, reach s /\ In (NAsk c (Some k)) (log s) /\ In NClosed (log s) /\ In (NDisc false c) (log s) /\ no_cb c (log s).
Proof.
  destruct (history log ([AInit true; AConnect (TTcp (Some 7%N)) (sysok 5); LConn 0 true (Some 5%N)] ++ ret2 ++ [ASend 0 SMsg w1; ADisc 0 (Some 9%N) false; AClose; LWrit 0 w1] ++ ret2 ++ [LClosed 0] ++ ret2 ++ [LWake; LWake])
    [NAddr 0 7; NRet 0 0; NConn true 0 0 (Some 0); NConn false 0 0 (Some 0); NSent 0 0; NAsk 0 (Some 9%N); NAsk 0 None; NWrit true 0; NWrit false 0; NDisc true 0; NDisc false 0; NClosed] eq_refl ltac:(vm_compute; reflexivity)) as (s & R & E).
  exists s, 0, 9%N. rewrite E. split; [exact R|]. split; [vm_compute; tauto|]. split; [vm_compute; tauto|]. split; [vm_compute; tauto|]. intros k I. repeat (destruct I as [I|I]; [discriminate|]). destruct I.
Qed.
Theorem C63_second_drops_first_refuted : exists s c, reach s /\ stk s = [] /\ In (NAsk c (Some 1%N)) (log s) /\ In (NAsk c (Some 2%N)) (log s) /\ In (NCb c 2%N) (log s) /\ ~ In (NCb c 1%N) (log s).
Proof.
  destruct (history (fun s => (stk s, log s)) ([AInit true; AConnect (TTcp (Some 7%N)) (sysok 5); LConn 0 true (Some 5%N)] ++ ret2 ++ [ADisc 0 (Some 1%N) false; ADisc 0 (Some 2%N) false; LClosed 0] ++ ret2 ++ [AReturn w1])
    ([], [NAddr 0 7; NRet 0 0; NConn true 0 0 (Some 0); NConn false 0 0 (Some 0); NAsk 0 (Some 1%N); NAsk 0 (Some 2%N); NDisc true 0; NDisc false 0; NCb 0 2]) eq_refl ltac:(vm_compute; reflexivity)) as (s & R & E). injection E as E1 E.
  exists s, 0. rewrite E1, E. split; [exact R|]. repeat (split; [vm_compute; tauto|]). intros I. repeat (destruct I as [I|I]; [discriminate|]). destruct I.
Qed.
Theorem C63_inside_callback_refuted : exists s c, reach s /\ stk s = [] /\ k_live (cs s c) = false /\ last_ask c (log s) (Some 2%N) /\ ~ In (NCb c 2%N) (log s).
Proof.
  destruct (history (fun s => (stk s, k_live (cs s 0), log s)) ([AInit true; AConnect (TTcp (Some 7%N)) (sysok 5); LConn 0 true (Some 5%N)] ++ ret2 ++ [ADisc 0 (Some 1%N) false; LClosed 0] ++ ret2 ++ [ADisc 0 (Some 2%N) false; AReturn w1])
    ([], false, [NAddr 0 7; NRet 0 0; NConn true 0 0 (Some 0); NConn false 0 0 (Some 0); NAsk 0 (Some 1%N); NDisc true 0; NDisc false 0; NCb 0 1] ++ NAsk 0 (Some 2%N) :: []) eq_refl ltac:(vm_compute; reflexivity)) as (s & R & E). injection E as E1 E2 E.
  exists s, 0. rewrite E1, E2, E. split; [exact R|]. split; [reflexivity|]. split; [reflexivity|]. split; [apply last_here with (l := [_; _; _; _; _; _; _; _])|]. intros I. repeat (destruct I as [I|I]; [discriminate|]). destruct I.
Qed.
(** Listening on a host that does not parse succeeds, on address 0: on every interface. *)
Theorem C59_bad_host_refuted : exists o es s, run (AInit true :: AListen (TTcp None) o :: es) st0 = Some (Go s) /\ In (NAddr 0 0%N) (log s) /\ In (NRet 0 0%Z) (log s).
Proof.
  exists (sysok 5), ret2.
  assert (E : (match run (AInit true :: AListen (TTcp None) (sysok 5) :: ret2) st0 with Some (Go s) => log s | _ => [] end) = [NAddr 0 0; NConn true 0 0 (Some 0); NConn false 0 0 (Some 0); NRet 0 0]) by (vm_compute; reflexivity).
  destruct (run _ st0) as [[s| |]|]; try discriminate. exists s. rewrite E. vm_compute. tauto.
Qed.
Print Assumptions C60_late_connected_refuted.
Print Assumptions C60_received_after_disconnect_refuted.
Print Assumptions C61_rehash_refuted.
Print Assumptions C62_waits_for_peer_refuted.
Print Assumptions C63_close_drops_callback_refuted.
Print Assumptions C63_second_drops_first_refuted.
Print Assumptions C63_inside_callback_refuted.
Print Assumptions C59_bad_host_refuted.
