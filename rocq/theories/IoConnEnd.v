(** Closing a stream channel comes to an end: what is left to complete only shrinks. *)
From Verif Require Import Base IoConn IoConnInv IoConnSpec IoConnAll IoConnStep.
Ltac Zify.zify_post_hook ::= idtac.

Fixpoint total (f : nat -> nat) (n : nat) : nat := match n with O => 0 | S n => f n + total f n end.
Definition wh (x : hnd) : nat := match h_st x with HOpen => 2 | HClosing _ => 1 | _ => 0 end.
(** Completions libuv still owes, at most. *)
Definition weight s : nat := total (fun h => wh (hs s h)) (nh s) + total (fun c => k_q (cs s c)) (nc s) + length (pend s).

Lemma total_le f g n : (forall i, i < n -> f i <= g i) -> total f n <= total g n.
Proof. induction n as [|n IH]; cbn; trivial. intros H. specialize (IH ltac:(intros; apply H; lia)). specialize (H n ltac:(lia)). lia. Qed.
Lemma total_lt f g n j d : j < n -> (forall i, i < n -> i <> j -> f i <= g i) -> f j + d <= g j -> total f n + d <= total g n.
Proof.
  induction n as [|n IH]; intros J H D; cbn; [lia|]. destruct (Nat.eq_dec j n) as [->|N].
  - pose proof (total_le f g n ltac:(intros; apply H; lia)). lia.
  - specialize (IH ltac:(lia) ltac:(intros; apply H; lia) D). specialize (H n ltac:(lia) ltac:(lia)). lia.
Qed.

Record less (s s' : st) : Prop := {
  m_nh : nh s' = nh s; m_nc : nc s' = nc s; m_h : forall h, wh (hs s' h) <= wh (hs s h); m_q : forall c, k_q (cs s' c) <= k_q (cs s c); m_p : length (pend s') <= length (pend s) }.
Lemma less_weight s s' : less s s' -> weight s' <= weight s.
Proof. intros []. unfold weight. rewrite m_nh0, m_nc0. pose proof (total_le _ _ (nh s) (fun h _ => m_h0 h)). pose proof (total_le _ _ (nc s) (fun h _ => m_q0 h)). lia. Qed.
Lemma less_refl s : less s s.
Proof. constructor; trivial. Qed.
Lemma less_trans s t u : less s t -> less t u -> less s u.
Proof. intros [] []. constructor; try congruence; intros; try (etransitivity; eauto). Qed.
(** The fields [weight] looks at. *)
Lemma less_view s s' : nh s' = nh s -> nc s' = nc s -> hs s' = hs s -> cs s' = cs s -> pend s' = pend s -> less s s'.
Proof. intros E1 E2 E3 E4 E5. constructor; trivial; intros; rewrite ?E3, ?E4, ?E5; trivial. Qed.
Ltac view := apply less_view; reflexivity.

Lemma less_h h f s : (forall x, wh (f x) <= wh x) -> less s (on_h h f s).
Proof. intros H. constructor; trivial. intros j. cbn. unfold upd. destruct (Nat.eqb_spec j h) as [->|]; auto. Qed.
Lemma less_c c f s : (forall x, k_q (f x) <= k_q x) -> less s (on_c c f s).
Proof. intros H. constructor; trivial. intros j. cbn. unfold upd. destruct (Nat.eqb_spec j c) as [->|]; auto. Qed.
Lemma less_close h w s s' : uv_close h w s = Go s' -> less s s'.
Proof.
  unfold uv_close. destruct (is_open (hs s h)) eqn:E; [|discriminate]. intros X. injection X as <-. constructor; trivial. intros j. cbn. unfold upd. destruct (Nat.eqb_spec j h) as [->|]; trivial.
  unfold is_open in E. unfold wh at 2. cbn. destruct (h_st (hs s h)); try discriminate. lia.
Qed.
Lemma less_shut_conn rh c s s' : shut_conn rh c s = Go s' -> less s s'.
Proof.
  unfold shut_conn. destruct (h_data _); try discriminate. destruct (find_pool _ _); try discriminate. destruct (_ =? c); try discriminate. intros E. apply less_close in E. revert E. apply less_trans. destruct rh; view.
Qed.
Lemma less_shut_async a s s' : shut_async a s = Go s' -> less s s'.
Proof.
  unfold shut_async. destruct (a_kind _); [|discriminate]. destruct (h_data _); try discriminate.
  - intros E. apply less_close in E. revert E. apply less_trans. apply less_h. trivial.
  - destruct (_ =? a); [|discriminate]. apply less_close.
Qed.
Lemma less_shut_ptr h s s' : shut_ptr h s = Go s' -> less s s'.
Proof. unfold shut_ptr. destruct (h_data _); try discriminate. intros E. apply less_close in E. revert E. apply less_trans. apply less_h. trivial. Qed.
Lemma less_free h s s' : free_handle h s = Go s' -> less s s'.
Proof.
  unfold free_handle. destruct (h_st (hs s h)) eqn:E; try discriminate. intros X. injection X as <-. constructor; trivial. intros j. cbn. unfold upd. destruct (Nat.eqb_spec j h) as [->|]; trivial. unfold wh. cbn. lia.
Qed.
Lemma less_disc_run rh c s s' : disc_run rh c s = Go s' -> less s s'.
Proof. unfold disc_run. destruct (k_cl _); [intros E; injection E as <-; apply less_refl|]. intros E. apply less_shut_conn in E. revert E. apply less_trans. apply less_c. trivial. Qed.
Lemma less_disc rh c d force s s' : disc_inner rh c d force s = Go s' -> less s s'.
Proof.
  unfold disc_inner. set (s1 := emit _ _). assert (L : less s s1) by (apply (less_trans s (on_c c (c_disc d) s)); [apply less_c; trivial|view]).
  destruct (negb _); [intros E; injection E as <-; exact L|]. set (s2 := on_c c (c_st Disconnecting) s1). assert (L2 : less s s2) by (apply (less_trans s s1); trivial; apply less_c; trivial).
  destruct (_ && _); [intros E; injection E as <-; exact L2|]. intros E. apply less_disc_run in E. now apply (less_trans s s2).
Qed.
Lemma less_release c v s s' : release c v s = Go s' -> less s s'.
Proof. unfold release. destruct (negb _); [discriminate|]. destruct (find_gc c s); [|discriminate]. intros E. apply less_free in E. revert E. apply less_trans. apply (less_trans s (on_c n (c_live false) s)); [apply less_c; trivial|view]. Qed.
Lemma less_unguard g s : less s (unguard g s).
Proof. destruct g; view. Qed.
Lemma less_after c g s s' : after_write c g s = Go s' -> less s s'.
Proof.
  unfold after_write. destruct (_ && _).
  - destruct (disc_run false c s) as [s1| |] eqn:E; cbn [bind]; try discriminate. intros X. injection X as <-. apply less_disc_run in E. apply (less_trans s s1); trivial. apply less_unguard.
  - cbn [bind]. intros X. injection X as <-. apply less_unguard.
Qed.
Lemma less_call l k s s' : call l k s = Some s' -> less s s'.
Proof. unfold call. destruct l; [discriminate|]. intros E. injection E as <-. view. Qed.

Lemma run_weight o k s s' : (forall c, k_live (cs s c) = true -> c < nc s) -> run_kont o k s = Go s' -> weight s' <= weight s.
Proof.
  intros B. destruct k as [r|a g|a [|] g|[h|] g|c v g|c v g|c fr g|c fr g|c g|c g]; cbn [run_kont].
  - intros E. injection E as <-. apply less_weight. view.
  - intros E. injection E as <-. apply less_weight. apply (less_trans s (free_async a s)); [view|apply less_unguard].
  - intros E. injection E as <-. apply less_weight. apply (less_trans s (free_async a s)); [view|apply less_unguard].
  - destruct (shut_async a s) as [s1| |] eqn:E; cbn [bind]; try discriminate. intros X. injection X as <-. apply less_weight. apply less_shut_async in E. apply (less_trans s s1); trivial. apply less_unguard.
  - destruct (shut_ptr h s) as [s1| |] eqn:E; cbn [bind]; try discriminate. intros X. injection X as <-. apply less_weight. apply less_shut_ptr in E. apply (less_trans s s1); trivial. apply less_unguard.
  - intros X. injection X as <-. apply less_weight. apply less_unguard.
  - destruct (negb _); [discriminate|]. destruct (k_disc _); [intros X; injection X as <-; apply less_weight; view|].
    destruct (release c v s) as [s1| |] eqn:E; cbn [bind]; try discriminate. intros X. injection X as <-. apply less_weight. apply less_release in E. apply (less_trans s s1); trivial. apply less_unguard.
  - destruct (release c v s) as [s1| |] eqn:E; cbn [bind]; try discriminate. intros X. injection X as <-. apply less_weight. apply less_release in E. apply (less_trans s s1); trivial. apply less_unguard.
  - destruct fr; [|intros X; injection X as <-; apply less_weight; apply less_unguard].
    destruct (disc_inner _ _ _ _ s) as [s1| |] eqn:E; cbn [bind]; try discriminate. intros X. injection X as <-. apply less_weight. apply less_disc in E. apply (less_trans s s1); trivial. apply less_unguard.
  - destruct (disc_inner _ _ _ _ s) as [s1| |] eqn:E; cbn [bind]; try discriminate. intros X. injection X as <-. apply less_weight. apply less_disc in E. apply (less_trans s s1); trivial. apply less_unguard.
  - destruct (k_live (cs s c)) eqn:V; cbn [negb]; [|discriminate]. set (s1 := on_c c _ s). assert (L1 : less s s1) by (now apply less_c). pose proof (less_weight _ _ L1) as W1.
    destruct (k_q (cs s1 c) =? 0) eqn:Q; [intros E; apply less_after, less_weight in E; lia|].
    destruct (k_cl (cs s1 c)).
    + destruct (call _ _ s1) eqn:E; intros X; injection X as <-; [apply less_call, less_weight in E; lia|lia].
    + unfold start_write. destruct (o_write o); [|intros E; apply less_after, less_weight in E; lia]. intros E. apply less_after, less_weight in E. etransitivity; [exact E|]. etransitivity; [|exact W1]. apply Nat.eqb_neq in Q.
      unfold weight. cbn [nh nc hs pend req_start set_pend on_c set_cs length]. set (m := Nat.min _ _). assert (M : 1 <= m <= k_q (cs s1 c)) by (unfold m; lia).
      assert (T : total (fun d => k_q (upd (cs s1) c (c_wr true (k_q (cs s1 c) - m) m (cs s1 c)) d)) (nc s1) + 1 <= total (fun d => k_q (cs s1 d)) (nc s1)).
      { apply (total_lt _ _ _ c); [exact (B c V)|intros i _ N; now rewrite upd_other|rewrite upd_same; cbn [k_q c_wr]; lia]. }
      cbn [cs req_start set_pend on_c set_cs]. lia.
  - destruct (negb _); [discriminate|]. intros E. apply less_after, less_weight in E. etransitivity; [exact E|]. apply less_weight, less_c. intros x. cbn. lia.
Qed.
Lemma calls_weight o l k s s' : (forall c, k_live (cs s c) = true -> c < nc s) -> calls o l k s = Go s' -> weight s' <= weight s.
Proof.
  intros B. unfold calls. destruct (call l k s) eqn:C; [|now apply run_weight]. intros E. injection E as <-. now apply less_weight, (less_call l k).
Qed.

(** Completions: of a connect, a name resolution, a write, the close of a handle. *)
Definition completes (e : ev) : nat := match e with LConn _ _ _ | LName _ _ _ | LWrit _ _ | LClosed _ => 1 | _ => 0 end.
Definition accepts (e : ev) : nat := match e with LAccept _ _ _ _ => 1 | _ => 0 end.

Lemma drop_length p l : In p l -> S (length (drop p l)) = length l.
Proof. induction l as [|q l IH]; intros I; [destruct I|]. cbn [drop]. destruct (pnd_eqb p q) eqn:E; [reflexivity|]. destruct I as [->|I]; [|cbn; now rewrite IH]. exfalso. destruct p; cbn in E; rewrite Nat.eqb_refl in E; discriminate. Qed.
Lemma ended_weight p s s1 : req_end p s = Go s1 -> In p (pend s) -> weight s1 + 1 <= weight s /\ cl s1 = cl s /\ cs s1 = cs s /\ nc s1 = nc s.
Proof. unfold req_end. destruct (reqs s =? 0); [discriminate|]. intros E I. injection E as <-. unfold weight. cbn. pose proof (drop_length _ _ I). repeat split; lia. Qed.
Lemma less_guard s s1 g : guard s = (s1, g) -> less s s1 /\ cl s1 = cl s /\ cs s1 = cs s /\ nc s1 = nc s.
Proof. unfold guard. destruct (cb s); intros E; injection E as <- _; repeat split; view. Qed.

Lemma close_weight s e s' : Inv s -> cl s = true -> step s e = Some (Go s') -> weight s' + completes e <= weight s + 2 * accepts e.
Proof.
  intros H Cl E. destruct H as [F L]. assert (B : forall c, k_live (cs s c) = true -> c < nc s) by (intros c; now apply (full_live _ _ _ F)).
  destruct e; cbn [step completes accepts] in *; rewrite ?Nat.mul_0_r, ?Nat.add_0_r.
  - destruct (_ && _); [|discriminate]. injection E as <-. apply less_weight. view.
  - destruct (_ && _); [|discriminate]. unfold listen in E. change (cl (set_nr (S (nr s)) s)) with (cl s) in E. rewrite Cl in E. injection E as <-. apply less_weight. view.
  - destruct (user_turn s); [|discriminate]. unfold connect in E. change (cl (set_nr (S (nr s)) s)) with (cl s) in E. rewrite Cl in E. injection E as <-. apply less_weight. view.
  - destruct (_ && _); [|discriminate]. assert (X : disc_inner rh c d false s = Go s') by congruence. now apply less_disc, less_weight in X.
  - destruct (user_turn s); [|discriminate]. destruct (find_pool f s) as [c|]; [|injection E as <-; trivial]. assert (X : disc_inner rh c d false s = Go s') by congruence. now apply less_disc, less_weight in X.
  - destruct (_ && _) eqn:G; [|discriminate]. apply andb_true_iff in G. assert (X : s' = send o c m s) by congruence. subst s'.
    assert (NC : st_eqb (k_st (cs s c)) Connected = false) by (pose proof (i_cld _ _ L Cl c (proj2 G)) as X; destruct (k_st (cs s c)); [now contradiction X|reflexivity|reflexivity]).
    unfold send. rewrite NC. cbn [negb]. destruct m; apply less_weight; view.
  - destruct (user_turn s) eqn:UT; [|discriminate]. unfold close in E. change (cb (set_cl true s)) with (cb s) in E. destruct (cb s) eqn:Cb; [discriminate|]. exfalso. clear E.
    assert (NU : existsb is_uv (stk s) = false) by (now rewrite <- (i_cb _ _ L)). pose proof (i_cl _ _ L) as W. rewrite Cl in W. symmetry in W. apply existsb_exists in W. destruct W as (f & I & X). destruct f as [|p g]; [discriminate|]. apply in_split in I. destruct I as (u & v & E).
    destruct (i_shape _ _ L _ _ _ _ E) as [_ [->|(f & -> & Uf)]]; [unfold user_turn in UT; now rewrite E in UT|]. rewrite E in NU. cbn in NU. now rewrite Uf in NU.
  - unfold resume in E. destruct (stk s) as [|[[|n l] k|] t]; try discriminate.
    + assert (X : run_kont o k (set_stk t s) = Go s') by congruence. apply run_weight in X; [|exact B]. etransitivity; [exact X|]. apply less_weight. view.
    + injection E as <-. apply less_weight. view.
  - destruct (_ && _) eqn:G; [|discriminate]. apply andb_true_iff in G. destruct G as [G _]. apply andb_true_iff in G. destruct G as [_ G]. apply has_in in G. assert (X : on_connected a ok f s = Go s') by congruence. clear E. unfold on_connected in X.
    destruct (negb _); [discriminate|]. destruct (a_kind _); [|discriminate]. destruct (req_end (PConn a) s) as [s1| |] eqn:E; try discriminate. cbn [bind] in X. destruct (ended_weight _ _ _ E G) as (W & C1 & C2 & C3). destruct (guard s1) as [s2 g] eqn:Gd. apply less_guard in Gd. destruct Gd as (G1 & G2 & G3 & G4). apply less_weight in G1.
    assert (B2 : forall c, k_live (cs s2 c) = true -> c < nc s2) by (now rewrite G3, G4, C2, C3). rewrite G2, C1, Cl in X. destruct (negb ok); apply calls_weight in X; trivial; lia.
  - destruct (_ && _) eqn:G; [|discriminate]. apply andb_true_iff in G. destruct G as [G _]. apply andb_true_iff in G. destruct G as [_ G]. apply has_in in G. assert (X : on_resolved a ip o s = Go s') by congruence. clear E. unfold on_resolved in X.
    destruct (negb _); [discriminate|]. destruct (a_kind _); [discriminate|]. destruct (req_end (PDns a) s) as [s1| |] eqn:E; try discriminate. cbn [bind] in X. destruct (ended_weight _ _ _ E G) as (W & C1 & C2 & C3). destruct (guard s1) as [s2 g] eqn:Gd. apply less_guard in Gd. destruct Gd as (G1 & G2 & G3 & G4). apply less_weight in G1.
    assert (B2 : forall c, k_live (cs s2 c) = true -> c < nc s2) by (now rewrite G3, G4, C2, C3). rewrite G2, C1, Cl in X. destruct ip; apply calls_weight in X; trivial; lia.
  - destruct (_ && _); [|discriminate]. assert (X : on_accept h ok acc f s = Go s') by congruence. clear E. unfold on_accept in X. destruct (h_data _); try discriminate. destruct (negb (k_live _)); [discriminate|].
    destruct (guard s) as [s2 g] eqn:Gd. apply less_guard in Gd. destruct Gd as (G1 & G2 & G3 & G4). apply less_weight in G1. assert (B2 : forall c, k_live (cs s2 c) = true -> c < nc s2) by (now rewrite G3, G4).
    destruct (negb ok); [apply calls_weight in X; trivial; lia|]. destruct (new_handle (h_pipe (hs s h)) s2) as [s3 n] eqn:NH.
    assert (W3 : weight s3 <= weight s2 + 2 /\ cl s3 = cl s2 /\ cs s3 = cs s2 /\ nc s3 = nc s2).
    { unfold new_handle in NH. injection NH as <- _. repeat split. unfold weight. cbn [nh nc hs cs pend set_nh set_hs total]. rewrite upd_same. unfold wh at 1. cbn [h_st].
      pose proof (total_le (fun h0 => wh (upd (hs s2) (nh s2) {| h_st := HOpen; h_data := DNull; h_use := UNone; h_fd := None; h_own := ow s2; h_pipe := h_pipe (hs s h) |} h0)) (fun h0 => wh (hs s2 h0)) (nh s2)) as T. lapply T; [lia|]. intros i I. rewrite upd_other by lia. trivial. }
    destruct W3 as (W3 & C3 & C4 & C5). assert (B3 : forall c, k_live (cs s3 c) = true -> c < nc s3) by (now rewrite C4, C5). destruct (negb acc); [apply calls_weight in X; trivial; lia|]. rewrite C3, G2, Cl in X. apply calls_weight in X; trivial; lia.
  - destruct (_ && _); [|discriminate]. assert (X : on_read h x s = Go s') by congruence. clear E. unfold on_read in X. destruct (h_data _); try discriminate. destruct (negb (k_live _)); [discriminate|].
    destruct (guard s) as [s2 g] eqn:Gd. apply less_guard in Gd. destruct Gd as (G1 & G2 & G3 & G4). apply less_weight in G1. assert (B2 : forall c, k_live (cs s2 c) = true -> c < nc s2) by (now rewrite G3, G4).
    assert (U : forall t, weight (unguard g t) <= weight t) by (intros t; apply less_weight, less_unguard).
    destruct (negb _); [assert (Y : s' = unguard g s2) by congruence; subst s'; specialize (U s2); lia|]. destruct x as [[|]|reset|n free].
    + destruct (disc_inner _ _ _ _ s2) as [s3| |] eqn:D; try discriminate. cbn [bind] in X. apply less_disc, less_weight in D. assert (Y : s' = unguard g s3) by congruence. subst s'. specialize (U s3). lia.
    + assert (Y : s' = unguard g s2) by congruence. subst s'. specialize (U s2). lia.
    + apply calls_weight in X; trivial; lia.
    + apply calls_weight in X; trivial; lia.
  - destruct (_ && _) eqn:G; [|discriminate]. apply andb_true_iff in G. destruct G as [_ G]. apply has_in in G. assert (X : on_written c o s = Go s') by congruence. clear E. unfold on_written in X.
    destruct (negb _); [discriminate|]. destruct (req_end (PWrite c) s) as [s1| |] eqn:E; try discriminate. cbn [bind] in X. destruct (ended_weight _ _ _ E G) as (W & C1 & C2 & C3). destruct (guard s1) as [s2 g] eqn:Gd. apply less_guard in Gd. destruct Gd as (G1 & G2 & G3 & G4). apply less_weight in G1.
    apply calls_weight in X; [lia|]. now rewrite G3, G4, C2, C3.
  - destruct (h_st (hs s h)) as [|w| |] eqn:Hs; try discriminate. destruct (_ && _); [|discriminate]. assert (X : on_closed h w s = Go s') by congruence. clear E. unfold on_closed in X.
    set (s1 := on_h h (h_state HClosed) s) in *.
    assert (W1 : weight s1 + 1 <= weight s).
    { assert (N : h < nh s). { destruct (Nat.lt_ge_cases h (nh s)) as [|N]; trivial. apply (h_out _ _ _ _ _ (f_core _ _ F)) in N. congruence. }
      unfold weight, s1. cbn [nh nc hs cs pend on_h set_hs].
      pose proof (total_lt (fun j => wh (upd (hs s) h (h_state HClosed (hs s h)) j)) (fun j => wh (hs s j)) (nh s) h 1 N) as T. lapply T; [|intros i _ X1; now rewrite upd_other]. clear T. intros T. lapply T; [lia|]. rewrite upd_same. unfold wh. cbn [h_st h_state]. rewrite Hs. lia. }
    destruct w, (h_data (hs s1 h)); try discriminate.
    + assert (Y : s' = s1) by congruence. subst s'. lia.
    + destruct (negb _); [discriminate|]. destruct (guard s1) as [s2 g] eqn:Gd. apply less_guard in Gd. destruct Gd as (G1 & G2 & G3 & G4). apply less_weight in G1. destruct (find_gc c s2) as [v|]; [|discriminate].
      assert (W2 : weight (on_c v (c_st Disconnected) s2) <= weight s2) by (apply less_weight, less_c; trivial).
      unfold calls in X. cbn [both call] in X. set (s3 := on_c v (c_st Disconnected) s2) in *. assert (Y : s' = emit (NDisc true v) (set_stk (Frame [NDisc false v] (JGone c (gv s2) g) :: stk s3) s3)) by congruence. subst s'.
      change (weight (emit (NDisc true v) (set_stk (Frame [NDisc false v] (JGone c (gv s2) g) :: stk s3) s3))) with (weight s3). lia.
    + destruct (a_kind _); [|discriminate]. destruct (negb _); [discriminate|]. destruct (_ =? h); [|discriminate]. apply less_free, less_weight in X. change (weight (free_async a s1)) with (weight s1) in X. lia.
    + apply less_free, less_weight in X. lia.
  - unfold wake in E. destruct (stk s) as [|[|p g] t]; try discriminate. destruct p.
    + destruct (_ && _); [injection E as <-; apply less_weight; view|destruct (lp s); discriminate].
    + destruct (_ =? 0); [|destruct (lp s); discriminate]. injection E as <-. apply less_weight. destruct g; view.
    + destruct (own_done s); [|discriminate]. injection E as <-. apply less_weight. destruct g; view.
Qed.

(** While close waits, libuv owes a completion or the wait is over. *)
Lemma close_progress s p g t : Inv s -> stk s = Wait p g :: t -> (exists s', step s LWake = Some (Go s')) \/ exists e s', completes e = 1 /\ step s e = Some (Go s').
Proof.
  intros H E. pose proof H as [F L]. rewrite E in L, F. destruct (wait_top _ _ _ _ L) as (NU & -> & NW). assert (Q : quiet (konts t)) by (now apply quiet_konts). change (konts (Wait p true :: t)) with (konts t) in F. pose proof (f_core _ _ F) as C.
  assert (IL : in_loop s = false) by (unfold in_loop; rewrite E; exact NU).
  assert (Go1 : forall e r, completes e = 1 -> step s e = Some r -> exists e s', completes e = 1 /\ step s e = Some (Go s')).
  { intros e r Ce Es. destruct (step_inv s e r H ltac:(destruct e; try discriminate; exact Logic.I) Es) as [(s' & -> & _)|(_ & -> & _)]; [eauto|discriminate]. }
  assert (P : forall q, In q (pend s) -> exists e s', completes e = 1 /\ step s e = Some (Go s')).
  { intros q I. assert (Hq : has q s = true) by (unfold has; apply existsb_exists; exists q; split; trivial; destruct q; cbn; apply Nat.eqb_refl). destruct q as [a|a|c].
    - apply (Go1 (LConn a false None) (on_connected a false None s)); [reflexivity|]. cbn [step fd_fresh]. now rewrite IL, Hq.
    - apply (Go1 (LName a None {| o_mem := false; o_bind := false; o_listen := false; o_start := false; o_file := None |}) (on_resolved a None {| o_mem := false; o_bind := false; o_listen := false; o_start := false; o_file := None |} s)); [reflexivity|]. cbn [step fd_fresh o_file]. now rewrite IL, Hq.
    - apply (Go1 (LWrit c no_write) (on_written c no_write s)); [reflexivity|]. cbn [step]. now rewrite IL, Hq. }
  destruct (pend s) as [|q l] eqn:Ep; [|right; apply (P q); now left]. clear P.
  assert (Cz : forall h w, h_st (hs s h) = HClosing w -> exists e s', completes e = 1 /\ step s e = Some (Go s')).
  { intros h w Hs. apply (Go1 (LClosed h) (on_closed h w s)); [reflexivity|]. cbn [step]. rewrite Hs, IL. unfold flushed. now rewrite Ep. }
  assert (Pl : pool s = []).
  { destruct (pool s) as [|[f c] l] eqn:X; trivial. exfalso. assert (I : In (f, c) (pool s)) by (rewrite X; now left). destruct (p_c _ _ _ _ _ C _ _ I) as (V & _ & _ & _ & _ & _ & [S|[S W]]).
    - assert (Cl : cl s = true) by (rewrite (i_cl _ _ L); reflexivity). now apply (i_cld _ _ L Cl c V).
    - assert (IW : In c (wraw (konts t) s)) by (apply (w_c _ _ _ _ _ C); now split). rewrite quiet_wr, Ep in IW by trivial. destruct IW. }
  destruct (gc s) as [|[f c] l] eqn:G.
  2:{ right. assert (I : In (f, c) (gc s)) by (rewrite G; now left). destruct (g_c _ _ _ _ _ C _ _ I) as (_ & _ & _ & _ & [[_ S]|(_ & _ & S)]); [now apply (Cz _ _ S)|]. rewrite quiet_gone in S by trivial. destruct S. }
  destruct p; cbn [step]; unfold wake; rewrite E.
  - left. rewrite Pl, G. cbn. eauto.
  - left. rewrite (n_req _ _ _ _ _ C), Ep. cbn. eauto.
  - destruct (own_done s) eqn:OD; [left; eauto|right]. unfold own_done in OD. rewrite Ep, andb_true_r in OD.
    assert (X : exists h, In h (seq 0 (nh s)) /\ match h_st (hs s h) with HOpen | HClosing _ => negb (h_own (hs s h)) | _ => true end = false).
    { clear -OD. induction (seq 0 (nh s)) as [|h m IH]; [discriminate|]. cbn [forallb] in OD. apply andb_false_iff in OD. destruct OD as [OD|OD]; [exists h; split; [now left|exact OD]|]. destruct (IH OD) as (j & I & J). exists j. split; [now right|exact J]. }
    destruct X as (h & _ & X). destruct (h_st (hs s h)) as [|w| |] eqn:Hs; try discriminate; [|now apply (Cz h w)].
    exfalso. pose proof (h_ok _ _ _ _ _ C h) as HO. unfold hok in HO. rewrite Hs in HO. rewrite quiet_raw, Ep in HO by trivial. destruct HO as [[]|(c & _ & I & _)]. rewrite Pl in I. destruct I.
Qed.
