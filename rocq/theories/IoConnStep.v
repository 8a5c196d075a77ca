(** Every event keeps the invariant of IoConnAll.v, and none of them fails. *)
From Coq Require Import Permutation.
From Verif Require Import Base IoConn IoConnInv IoConnSpec IoConnAll.
Ltac Zify.zify_post_hook ::= idtac.

(** * Pieces *)
Lemma silent_handle s pipe : lp s = true -> silent s (fst (new_handle pipe s)).
Proof. intros P. constructor; trivial. intros h. cbn. unfold upd. destruct (h =? nh s); [right; auto|left; auto]. Qed.
Lemma silent_hs s v : (forall j, hold (v j) = true -> hold (hs s j) = true /\ h_own (v j) = h_own (hs s j)) -> silent s (set_hs v s).
Proof. intros H. constructor; trivial. intros h X. left. apply H. exact X. Qed.
Lemma silent_stk s x : silent s (set_stk x s).
Proof. constructor; trivial. auto. Qed.
Lemma silent_async K s a x : Full K s -> na s <= a -> silent s (set_na (S a) (set_az (upd (az s) a x) s)).
Proof.
  intros [C _ _] N. constructor; trivial; [|auto]. intros b I. cbn. unfold upd. destruct (Nat.eqb_spec b a) as [->|]; trivial.
  assert (X : In a (araw K s)) by (unfold araw; apply in_app_iff; now right). apply (a_ok _ _ _ _ _ C) in X. apply (a_l _ _ _ _ _ C) in X. lia.
Qed.
Lemma silent_free s a : silent s (free_async a s).
Proof. constructor; trivial; [|auto]. intros b _. cbn. unfold upd. destruct (Nat.eqb_spec b a) as [->|]; reflexivity. Qed.
Lemma fd_free_handle f pipe s : fd_free f s = true -> fd_free f (fst (new_handle pipe s)) = true.
Proof.
  unfold fd_free. rewrite !forallb_forall. intros H h I. apply in_seq in I. cbn [nh new_handle fst set_nh set_hs] in I. cbn [hs new_handle fst set_nh set_hs]. unfold upd. destruct (Nat.eqb_spec h (nh s)) as [->|N]; [reflexivity|]. apply H. apply in_seq. lia.
Qed.

Lemma listen_on_ok K s pipe o : Full K s -> lp s = true -> fd_fresh (o_file o) s = true ->
  (exists s' z, listen_on pipe o s = (Go s', inr z) /\ z <> 0%Z /\ Full K s' /\ silent s s' /\ stk s' = stk s) \/
  (exists f s1 K1, listen_on pipe o s = (Go (fst (make_conn (nh s) f true s1)), inl (nc s1)) /\ silent s s1 /\ stk s1 = stk s /\ Full K1 s1 /\ Full K (fst (make_conn (nh s) f true s1))).
Proof.
  intros F P Fr. unfold listen_on. pose proof (full_new_handle K s pipe true F) as F1. pose proof (silent_handle s pipe P) as S1.
  destruct (new_handle pipe s) as [s1 h] eqn:E. assert (Eh : h = nh s) by (unfold new_handle in E; congruence). assert (E1 : stk s1 = stk s) by (unfold new_handle in E; injection E as <- _; reflexivity). cbn [fst] in *. subst h.
  assert (Bad : forall z, z <> 0%Z -> exists s' y, (shut_ptr (nh s) s1, @inr nat Z z) = (Go s', inr y) /\ y <> 0%Z /\ Full K s' /\ silent s s' /\ stk s' = stk s).
  { intros z Z. destruct (full_shut_ptr _ _ _ _ F1) as (s' & -> & F' & v & -> & Hv). exists (set_hs v s1), z. split; [reflexivity|]. split; [exact Z|]. split; [exact F'|]. split; [|exact E1]. apply (silent_trans s s1); trivial. now apply silent_hs. }
  destruct (o_bind o); [|left; apply Bad; destruct pipe; discriminate]. destruct (o_listen o); [|left; apply Bad; destruct pipe; discriminate]. cbn [negb].
  destruct (o_file o) as [f|] eqn:Ef; [|left; apply Bad; discriminate]. right. cbn [fd_fresh] in Fr. exists f, s1, (JAcc (Some (nh s)) true :: K).
  split; [reflexivity|]. split; [exact S1|]. split; [exact E1|]. split; [exact F1|].
  apply (full_drop (JRet 0)); try reflexivity. apply (full_make_conn (JAcc (Some (nh s)) true)); trivial. pose proof (fd_free_handle f pipe s Fr) as X. now rewrite E in X.
Qed.

Lemma connect_on_ok K s pipe r o : Full K s -> lp s = true ->
  (exists s' z, connect_on pipe r o s = (Go s', z) /\ z <> 0%Z /\ Full K s' /\ silent s s' /\ stk s' = stk s) \/
  (exists s1 a, connect_on pipe r o s = (Go (req_start (PConn a) s1), 0%Z) /\ Full K (req_start (PConn a) s1) /\ silent s s1 /\ a_req (az s1 a) = r /\ stk s1 = stk s).
Proof.
  intros F P. unfold connect_on. pose proof (full_new_handle K s pipe true F) as F1. pose proof (silent_handle s pipe P) as S1.
  destruct (new_handle pipe s) as [s1 h] eqn:E. assert (Eh : h = nh s) by (unfold new_handle in E; congruence). assert (E1 : stk s1 = stk s) by (unfold new_handle in E; injection E as <- _; reflexivity). cbn [fst] in *. subst h.
  pose proof (full_new_stream K s1 (nh s) true true r pipe F1) as F2. set (s2 := set_na (S (na s1)) _) in *.
  assert (S2 : silent s s2) by (apply (silent_trans s s1); trivial; unfold s2; now apply (silent_async _ _ _ _ F1)).
  destruct (pipe || o_start o).
  - right. exists s2, (na s1). split; [reflexivity|]. split; [now apply (full_req_start K s2 (PConn (na s1)) true)|]. split; [exact S2|]. split; [unfold s2; cbn; now rewrite upd_same|exact E1].
  - left. destruct (full_shut_async _ _ _ _ F2) as (s' & -> & F' & v & -> & Hv). exists (set_hs v s2), E_SOCK_CONNECT. split; [reflexivity|]. split; [discriminate|]. split; [exact F'|]. split; [|exact E1]. apply (silent_trans s s2); trivial. now apply silent_hs.
Qed.

Lemma resolve_ok K s lis r o : Full K s ->
  (exists z, resolve lis r o s = (s, z) /\ z <> 0%Z) \/
  (exists s1 a, resolve lis r o s = (req_start (PDns a) s1, 0%Z) /\ Full K (req_start (PDns a) s1) /\ silent s s1 /\ a_req (az s1 a) = r /\ stk s1 = stk s).
Proof.
  intros F. unfold resolve. destruct (o_start o); [right|left; exists E_DNS; split; [reflexivity|discriminate]].
  pose proof (full_new_name K s true r lis F) as F1. set (s1 := set_na _ _) in *. exists s1, (na s). split; [reflexivity|]. split; [now apply (full_req_start K s1 (PDns (na s)) true)|]. split; [now apply (silent_async K)|]. split; [unfold s1; cbn; now rewrite upd_same|reflexivity].
Qed.

Lemma get_loop_ok K fs o s : Full K s -> Lt fs s -> cl s = false ->
  get_loop o s = None \/ exists s1, get_loop o s = Some s1 /\ Full K s1 /\ Lt fs s1 /\ lp s1 = true /\ stk s1 = stk s /\ cl s1 = false /\ (forall f, fd_fresh f s1 = fd_fresh f s) /\ az s1 = az s.
Proof.
  intros F L C. unfold get_loop. destruct (lp s) eqn:P; [right; exists s; auto 10|]. destruct (o_mem o); [right|now left]. exists (set_loop true true s). split; [reflexivity|]. split; [samely|]. split; [now apply T_loop|]. repeat split; auto.
Qed.

Lemma inv_intro s fs K : Full K s -> Lt fs s -> stk s = fs -> K = konts fs -> Inv s.
Proof. intros F L <- ->. now split. Qed.

(** * Calls of the user *)
Lemma step_listen t o s : Inv s -> fd_fresh (o_file o) s = true -> exists s', listen t o s = Go s' /\ Inv s'.
Proof.
  intros [F L] Fr. unfold listen. set (r := nr s). set (s0 := set_nr (S r) s). change (cl s0) with (cl s).
  destruct (cl s) eqn:C; [eexists; split; [reflexivity|]; apply (inv_intro _ (stk s) (konts (stk s))); trivial; [samely|now apply T_closed]|].
  pose proof (T_enter _ _ C L) as L0. fold r in L0. fold s0 in L0. assert (F0 : Full (konts (stk s)) s0) by samely.
  set (fs := stk s) in *. assert (E0 : stk s0 = fs) by reflexivity.
  assert (Refuse : forall s' z, z <> 0%Z -> Full (konts fs) s' -> Lt (Frame (ask r 1) (JRet r) :: fs) s' -> stk s' = fs -> Inv (emit (NRet r z) s')).
  { intros s' z Z F' L' E'. apply (inv_intro _ fs (konts fs)); trivial; [samely|]. now apply (T_refuse _ _ _ 1). }
  assert (C0 : cl s0 = false) by exact C.
  destruct (get_loop_ok _ _ o _ F0 L0 C0) as [->|(s1 & -> & F1 & L1 & P1 & E1 & C1 & D1 & _)]; [eexists; split; [reflexivity|]; apply Refuse; trivial; discriminate|].
  rewrite E0 in E1.
  assert (Go1 : forall pipe s2, Full (konts fs) s2 -> Lt (Frame (ask r 1) (JRet r) :: fs) s2 -> lp s2 = true -> stk s2 = fs -> cl s2 = false -> fd_fresh (o_file o) s2 = true -> exists s',
    match listen_on pipe o s2 with (x, inr z) => ret r z x | (x, inl c) => do s <- x; calls {| o_merge := 0; o_write := false |} (both (fun f => NConn f r 0%Z (Some c))) (JRet r) s end = Go s' /\ Inv s').
  { intros pipe s2 F2 L2 P2 E2 C2 D2. destruct (listen_on_ok _ _ pipe _ F2 P2 D2) as [(s3 & z & -> & Z & F3 & S3 & E3)|(f & s3 & K3 & -> & S3 & E3 & F3 & F4)].
    - cbn [ret bind]. eexists. split; [reflexivity|]. apply Refuse; trivial; [now apply (T_silent _ s2)|congruence].
    - cbn [bind]. unfold calls. cbn [both call]. eexists. split; [reflexivity|].
      pose proof (T_silent _ _ _ S3 L2) as L3. assert (C3 : cl s3 = false) by (now rewrite (z_cl _ _ S3)).
      assert (L4 : Lt (Frame [NConn false r 0%Z (Some (nc s3))] (JRet r) :: fs) (emit (NConn true r 0%Z (Some (nc s3))) (fst (make_conn (nh s2) f true s3)))).
      { apply (T_birth K3 fs s3 false r 1 (JRet r) (JRet r)); trivial; [now left|]. intros q Eq. now injection Eq as <-. }
      set (s4 := fst (make_conn _ _ _ _)) in *. assert (E4 : stk s4 = fs) by (unfold s4; cbn; congruence).
      apply (inv_intro _ (Frame [NConn false r 0%Z (Some (nc s3))] (JRet r) :: fs) (JRet r :: konts fs)); [|exact (T_silent _ _ _ (silent_stk (emit _ s4) (Frame _ (JRet r) :: stk s4)) L4)|now rewrite <- E4|reflexivity].
      apply (full_same _ s4); [repeat split|]. now apply full_add. }
  assert (Fr1 : fd_fresh (o_file o) s1 = true) by (now rewrite D1).
  destruct t as [ip|[]| |].
  - apply Go1; trivial; [samely|now apply T_addr].
  - eexists. split; [reflexivity|]. apply Refuse; trivial. discriminate.
  - apply Go1; trivial.
  - destruct (resolve_ok _ _ true r o F1) as [(z & -> & Z)|(s2 & a & -> & F2 & S2 & A2 & E2)]; (eexists; split; [reflexivity|]); [now apply Refuse|].
    apply (inv_intro _ fs (konts fs)); trivial; [samely| |cbn; congruence]. apply T_ret. apply (T_accept _ _ _ _ a r 1); auto; [now rewrite (z_lp _ _ S2)|]. now apply (T_silent _ s1).
  - eexists. split; [reflexivity|]. apply Refuse; trivial. discriminate.
Qed.

Lemma step_connect t o s : Inv s -> exists s', connect t o s = Go s' /\ Inv s'.
Proof.
  intros [F L]. unfold connect. set (r := nr s). set (s0 := set_nr (S r) s). change (cl s0) with (cl s).
  destruct (cl s) eqn:C; [eexists; split; [reflexivity|]; apply (inv_intro _ (stk s) (konts (stk s))); trivial; [samely|now apply T_closed]|].
  pose proof (T_enter _ _ C L) as L0. fold r in L0. fold s0 in L0. assert (F0 : Full (konts (stk s)) s0) by samely.
  set (fs := stk s) in *. assert (E0 : stk s0 = fs) by reflexivity.
  assert (Refuse : forall s' z, z <> 0%Z -> Full (konts fs) s' -> Lt (Frame (ask r 1) (JRet r) :: fs) s' -> stk s' = fs -> Inv (emit (NRet r z) s')).
  { intros s' z Z F' L' E'. apply (inv_intro _ fs (konts fs)); trivial; [samely|]. now apply (T_refuse _ _ _ 1). }
  assert (Acc : forall s1 s2 p a, p = PConn a \/ p = PDns a -> Full (konts fs) (req_start p s2) -> silent s1 s2 -> a_req (az s2 a) = r -> stk s2 = fs -> lp s1 = true -> Lt (Frame (ask r 1) (JRet r) :: fs) s1 -> Inv (emit (NRet r 0%Z) (req_start p s2))).
  { intros s1 s2 p a Ep F2 S2 A2 E2 P1 L1. apply (inv_intro _ fs (konts fs)); trivial; [samely|]. apply T_ret. apply (T_accept _ _ _ _ a r 1); auto; [now rewrite (z_lp _ _ S2)|]. now apply (T_silent _ s1). }
  assert (C0 : cl s0 = false) by exact C.
  destruct (get_loop_ok _ _ o _ F0 L0 C0) as [->|(s1 & -> & F1 & L1 & P1 & E1 & C1 & D1 & _)]; [eexists; split; [reflexivity|]; apply Refuse; trivial; discriminate|].
  rewrite E0 in E1.
  assert (Go1 : forall pipe s2, Full (konts fs) s2 -> Lt (Frame (ask r 1) (JRet r) :: fs) s2 -> lp s2 = true -> stk s2 = fs -> exists s', (let (x, z) := connect_on pipe r o s2 in ret r z x) = Go s' /\ Inv s').
  { intros pipe s2 F2 L2 P2 E2. destruct (connect_on_ok _ _ pipe r o F2 P2) as [(s3 & z & -> & Z & F3 & S3 & E3)|(s3 & a & -> & F3 & S3 & A3 & E3)]; cbn [ret bind]; (eexists; split; [reflexivity|]).
    - apply Refuse; trivial; [now apply (T_silent _ s2)|congruence].
    - apply (Acc s2 s3 (PConn a) a); auto. congruence. }
  destruct t as [ip|long| |].
  - apply Go1; trivial; [samely|now apply T_addr].
  - apply Go1; trivial.
  - destruct (resolve_ok _ _ false r o F1) as [(z & -> & Z)|(s2 & a & -> & F2 & S2 & A2 & E2)]; (eexists; split; [reflexivity|]); [now apply Refuse|]. apply (Acc s1 s2 (PDns a) a); auto. congruence.
  - eexists. split; [reflexivity|]. apply Refuse; trivial. discriminate.
Qed.

Lemma step_disc c d rh s : Inv s -> k_live (cs s c) = true -> (rh = true -> gone (konts (stk s)) = []) -> exists s', disc_inner rh c d false s = Go s' /\ Inv s'.
Proof.
  intros [F L] V Q. destruct (full_disc_rh _ _ c d rh F Q V) as (s' & E & F' & A). exists s'. split; [exact E|]. pose proof (q_stk _ _ (k_frame _ _ _ _ A)) as ES.
  apply (inv_intro _ (stk s) (konts (stk s))); trivial. apply (T_ask _ s s' c d); trivial. now apply (full_live _ _ _ F).
Qed.

Lemma step_send o c m s : Inv s -> k_live (cs s c) = true -> Inv (send o c m s).
Proof.
  intros [F L] V. destruct (full_send _ _ o c m F V) as (F' & p & z & Ep & W & ES & El & Ez).
  apply (inv_intro _ (stk s) (konts (stk s))); trivial. apply (T_wrote _ s _ c p [NSent c z]); trivial; [now apply (live_lp (konts (stk s)) (stk s) s c)|].
  right. exists z. split; [reflexivity|]. apply inert_sent; trivial; [apply (i_life _ _ L)|now apply (full_live _ _ _ F)].
Qed.

(** * Ends of functions *)
Lemma leave fs s k : uvk k = true -> Full (konts fs) s -> Lt (Frame [] k :: fs) s -> stk s = fs -> Inv (unguard (kflag k) s).
Proof.
  intros U F L E. apply (inv_intro _ fs (konts fs)); trivial; [|now apply T_pop|]; destruct (kflag k); cbn [unguard]; trivial. samely.
Qed.
Lemma T_load fs s l k k' : like k k' -> uvk k = true -> (forall n, In n l -> owed s n) -> (forall n, In n l -> code_ok n) -> (forall b r, cnt (is_ans b r) l = 0) -> paired l -> Lt (Frame [] k :: fs) s -> Lt (Frame l k' :: fs) s.
Proof.
  intros Lk U W Cd An Pr H. apply (T_like _ _ _ _ _ Lk) in H; [|now left]. destruct (like_plain _ _ Lk) as (P' & _ & U' & _ & _). rewrite U in U'. clear Lk U. destruct H. constructor; trivial.
  - rewrite uv_cons in *. exact i_uv.
  - intros f [<-|I]; [exact (i_g (Frame [] k') (or_introl eq_refl))|apply i_g; now right].
  - revert i_shape. now apply shape_swap.
  - intros g [X|I]; [discriminate|]. apply (i_req g). now right.
  - intros p g [X|I]; [discriminate|]. apply (i_ow p g). now right.
  - intros f [<-|I]; [now apply fok_uv|apply i_frm; now right].
  - intros n I. rewrite rests_cons, !in_app_iff in I. destruct I as [I|[I|I]]; auto; apply i_code; rewrite rests_cons, !in_app_iff; auto.
  - intros r b. specialize (i_ans r b). rewrite rests_cons, jret_cons in *. revert i_ans. cn. rewrite An. lia.
  - intros r. specialize (i_ret r). now rewrite jret_cons in *.
  - intros x y E. specialize (i_twin x y E). rewrite rests_cons in *. revert i_twin. cn. rewrite (Pr x y E). cbn [count_occ]. lia.
Qed.

Lemma owed_times s f n m : (forall b, owed s (f b)) -> In m (times n (both f)) -> owed s m.
Proof. intros H. induction n as [|n IH]; cbn; [contradiction|]. intros [<-|[<-|I]]; auto. Qed.
Lemma in_times (P : note -> Prop) f n m : (forall b, P (f b)) -> In m (times n (both f)) -> P m.
Proof. intros H. induction n as [|n IH]; cbn; [contradiction|]. intros [<-|[<-|I]]; auto. Qed.
Lemma cnt_times (g : note -> bool) f n : (forall b, g (f b) = false) -> cnt g (times n (both f)) = 0.
Proof. intros H. induction n as [|n IH]; trivial. cbn [times both app]. cn. rewrite !H, IH. reflexivity. Qed.

Lemma released c v g fs s : stk s = fs -> (exists k, (k = JGone c v g \/ k = JErase c v g) /\ Full (k :: konts fs) s /\ Lt (Frame [] k :: fs) s /\ (k = JGone c v g -> k_disc (cs s c) = None)) ->
  exists s', (do s <- release c v s; Go (unguard g s)) = Go s' /\ Inv s'.
Proof.
  intros E (k & Ek & F & L & D). assert (Uk : uvk k = true) by (destruct Ek as [-> | ->]; reflexivity). assert (NU := no_uv_tail _ _ _ _ Uk L).
  assert (Kk : In (c, c) (gc s) /\ k_live (cs s c) = true /\ k_st (cs s c) = Disconnected) by (pose proof (f_k _ _ F k (or_introl eq_refl)) as X; destruct Ek as [-> | ->]; cbn in X; tauto). destruct Kk as (_ & V & S).
  assert (N : c < nc s) by (now apply (full_live _ _ _ F)).
  assert (LL : lives c (log s) = Some (Parted None) \/ lives c (log s) = Some Called).
  { pose proof (i_frm _ _ L _ (or_introl eq_refl)) as X. destruct Ek as [-> | ->]; cbn [fok] in X; [left|right; apply X]. destruct X as [[X _]|[_ X]]; [discriminate|]. now rewrite (D eq_refl) in X. }
  destruct (full_release (konts fs) s c v g) as (s' & -> & F' & Q & El & A1 & A2 & A3 & A4 & A5 & A6); [now exists k|now apply quiet_konts|].
  cbn [bind]. eexists. split; [reflexivity|]. replace g with (kflag k) by (destruct Ek as [-> | ->]; reflexivity). apply (leave fs); trivial; [|rewrite (q_stk _ _ Q); exact E].
  now apply (T_release _ s s' c).
Qed.

Lemma run_ok o k fs s : Full (k :: konts fs) s -> Lt (Frame [] k :: fs) s -> stk s = fs -> exists s', run_kont o k s = Go s' /\ Inv s'.
Proof.
  intros F L E. destruct k as [r|a g|a [|] g|[h|] g|c v g|c v g|c fr g|c fr g|c g|c g].
  - eexists. split; [reflexivity|]. apply (inv_intro _ fs (konts fs)); trivial; [|now apply T_ret]. apply (full_same _ s); [repeat split|]. now apply (full_drop (JRet r)).
  - eexists. split; [reflexivity|]. apply (leave fs (free_async a s) (JName a g)); trivial; [now apply (full_free_async (JName a g))|]. apply (T_silent _ s); trivial. apply silent_free.
  - eexists. split; [reflexivity|]. apply (leave fs (free_async a s) (JConn a true g)); trivial; [now apply (full_free_async (JConn a true g))|]. apply (T_silent _ s); trivial. apply silent_free.
  - cbn [run_kont]. destruct (full_shut_async _ _ _ _ F) as (s' & -> & F' & v & -> & Hv). cbn [bind]. eexists. split; [reflexivity|]. apply (leave fs (set_hs v s) (JConn a false g)); trivial. apply (T_silent _ s); trivial. now apply silent_hs.
  - cbn [run_kont]. destruct (full_shut_ptr _ _ _ _ F) as (s' & -> & F' & v & -> & Hv). cbn [bind]. eexists. split; [reflexivity|]. apply (leave fs (set_hs v s) (JAcc (Some h) g)); trivial. apply (T_silent _ s); trivial. now apply silent_hs.
  - eexists. split; [reflexivity|]. apply (leave fs s (JAcc None g)); trivial. now apply (full_drop (JAcc None g)).
  - destruct (f_k _ _ F _ (or_introl eq_refl)) as (I & V & S & W & Ev). cbn [run_kont]. rewrite V. cbn [negb]. destruct (k_disc (cs s c)) as [d|] eqn:D.
    + eexists. split; [reflexivity|]. apply (inv_intro _ (Frame [] (JErase c v g) :: fs) (JErase c v g :: konts fs)); [| |cbn; now rewrite E|reflexivity].
      * apply (full_same _ s); [repeat split|]. apply (full_swap (JGone c v g)); trivial. cbn. auto.
      * apply (T_silent _ (emit (NCb c d) s)); [constructor; trivial; auto|]. apply T_cb; trivial. now apply (full_live _ _ _ F).
    + apply (released c v g fs); trivial. exists (JGone c v g). auto.
  - apply (released c v g fs); trivial. exists (JErase c v g). split; [now right|]. split; [exact F|]. split; [exact L|discriminate].
  - destruct (f_k _ _ F _ (or_introl eq_refl)) as (V & S). cbn [run_kont]. destruct fr.
    + destruct (full_disc _ _ c None false F V) as (s' & -> & F' & A). cbn [bind]. eexists. split; [reflexivity|]. apply (leave fs s' (JRead c true g)); trivial; [now apply (full_drop (JRead c true g))| |rewrite (q_stk _ _ (k_frame _ _ _ _ A)); exact E].
      apply (T_ask _ s s' c None); trivial. now apply (full_live _ _ _ F).
    + eexists. split; [reflexivity|]. apply (leave fs s (JRead c false g)); trivial. now apply (full_drop (JRead c false g)).
  - destruct (f_k _ _ F _ (or_introl eq_refl)) as (V & S). cbn [run_kont].
    destruct (full_disc _ _ c None fr F V) as (s' & -> & F' & A). cbn [bind]. eexists. split; [reflexivity|]. apply (leave fs s' (JFail c fr g)); trivial; [now apply (full_drop (JFail c fr g))| |rewrite (q_stk _ _ (k_frame _ _ _ _ A)); exact E].
    apply (T_ask _ s s' c None); trivial. now apply (full_live _ _ _ F).
  - destruct (f_k _ _ F _ (or_introl eq_refl)) as (V & S). assert (P : lp s = true) by (now apply (live_lp _ _ _ c F L)).
    destruct (full_jwrit _ _ o c g F) as [(s2 & p & -> & F2 & Ep & W & El & Es)|(s2 & n & l & -> & En & F2 & W & El & Es)].
    + eexists. split; [reflexivity|]. apply (leave fs s2 (JWrit c g)); trivial; [|congruence]. apply (T_wrote _ s s2 c p []); auto. now rewrite app_nil_r.
    + eexists. split; [reflexivity|]. assert (L2 : Lt (Frame [] (JWrit c g) :: fs) s2) by (apply (T_wrote _ s s2 c [] []); auto; now rewrite app_nil_r).
      assert (A2 : alive s2 c) by (unfold alive; now rewrite (w_live _ _ _ _ W), (w_st _ _ _ _ W)).
      assert (L3 : Lt (Frame (n :: l) (JCanc c g) :: fs) s2).
      { rewrite En. apply (T_load fs s2 _ (JWrit c g)); trivial; [right; auto| | | |].
        - intros m. apply in_times. intros b. exact A2.
        - intros m. apply in_times. intros b. exact Logic.I.
        - intros b r. apply cnt_times. reflexivity.
        - apply paired_times, paired_writ. }
      apply (inv_intro _ (Frame l (JCanc c g) :: fs) (JCanc c g :: konts fs)); [apply (full_same _ s2); [repeat split|exact F2]| |cbn; congruence|reflexivity].
      apply (T_silent _ (emit n s2)); [constructor; trivial; auto|]. now apply (T_next _ _ _ _ _ _ F2).
  - destruct (full_jcanc _ _ o c g F) as (s2 & -> & F2 & W & El & Es). eexists. split; [reflexivity|]. destruct (f_k _ _ F _ (or_introl eq_refl)) as (V & _). assert (P : lp s = true) by (now apply (live_lp _ _ _ c F L)).
    apply (leave fs s2 (JCanc c g)); trivial; [|congruence]. apply (T_wrote _ s s2 c [] []); auto. now rewrite app_nil_r.
Qed.

Lemma calls_ok o l k fs s : Full (k :: konts fs) s -> uvk k = true -> plain k = true -> Lt (Frame l k :: fs) s -> stk s = fs -> exists s', calls o l k s = Go s' /\ Inv s'.
Proof.
  intros F U P L E. unfold calls. destruct l as [|n l]; cbn [call]; [now apply (run_ok _ _ fs)|]. eexists. split; [reflexivity|].
  apply (inv_intro _ (Frame l k :: fs) (k :: konts fs)); [apply (full_same _ s); [repeat split|exact F]| |cbn; congruence|reflexivity].
  apply (T_silent _ (emit n s)); [constructor; trivial; auto|]. now apply (T_next _ _ _ _ _ _ F).
Qed.

Lemma step_resume o s r : Inv s -> resume o s = Some r -> exists s', r = Go s' /\ Inv s'.
Proof.
  intros [F L]. unfold resume. destruct (stk s) as [|[[|n l] k|] fs] eqn:E; try discriminate.
  - intros H. injection H as <-. apply (run_ok o k fs); trivial; [apply (full_same _ s); [repeat split|exact F]|]. apply (T_silent _ s); trivial. apply silent_stk.
  - intros H. injection H as <-. eexists. split; [reflexivity|]. apply (inv_intro _ (Frame l k :: fs) (k :: konts fs)); [apply (full_same _ s); [repeat split|exact F]| |reflexivity|reflexivity].
    apply (T_silent _ (emit n s)); [constructor; trivial; auto|]. pose proof (i_frm _ _ L _ (or_introl eq_refl)) as FO.
    destruct (uvk k) eqn:U.
    + destruct (plain k) eqn:P; [now apply (T_next _ _ _ _ _ _ F)|].
      destruct k as [r|a g|a o' g|h g|c v g|c v g|c fr g|c fr g|c g|c g]; try discriminate; cbn [fok] in FO.
      * destruct FO as [[X _]|[X _]]; [|discriminate]. injection X as -> ->. destruct (f_k _ _ F _ (or_introl eq_refl)) as (_ & V & S & _). apply T_next_gone; trivial. now apply (full_live _ _ _ F).
      * destruct FO; discriminate.
    + destruct k as [r|a g|a o' g|h g|c v g|c v g|c fr g|c fr g|c g|c g]; try discriminate. cbn [fok] in FO. destruct FO as [X|[(z & X)|(c & Nc & X)]]; [discriminate|now apply (T_next_none _ _ _ _ _ z)|injection X as -> ->; now apply T_next_ret].
Qed.

(** * Callbacks of libuv *)
Lemma fire s p a : Inv s -> in_loop s = false -> In p (pend s) -> p = PConn a \/ p = PDns a -> exists s1,
  req_end p s = Go s1 /\ guard s1 = (set_cb true s1, true) /\ Full (kont_of p true :: konts (stk s)) (set_cb true s1) /\
  (forall z, z <> 0%Z -> Lt (Frame (ask (a_req (az s a)) z) (kont_of p true) :: stk s) (set_cb true s1)) /\ s1 = set_pend (drop p (pend s)) (pred (reqs s)) s.
Proof.
  intros [F L] NU I P.
  destruct (full_req_end _ s p true F I) as (s1 & E & -> & F1); [pose proof (f_p _ _ F p I) as X; destruct P as [-> | ->]; exact X|].
  eexists. split; [exact E|]. assert (C : cb s = false) by (now rewrite (i_cb _ _ L)). split; [unfold guard; cbn [cb set_pend]; now rewrite C|]. split; [samely|]. split; [|reflexivity].
  intros z Z. now apply T_fire; trivial; destruct P as [-> | ->].
Qed.

Lemma step_connected a ok f s : Inv s -> in_loop s = false -> In (PConn a) (pend s) -> fd_fresh f s = true -> exists s', on_connected a ok f s = Go s' /\ Inv s'.
Proof.
  intros H NU I Fr. destruct H as [F L]. destruct (f_p _ _ F _ I) as (h & pipe & K).
  assert (V : a_live (az s a) = true) by (apply (a_ok _ _ _ _ _ (f_core _ _ F)); unfold araw; apply in_app_iff; right; apply in_flat_map; exists (PConn a); split; [exact I|now left]).
  destruct (fire s (PConn a) a) as (s1 & E1 & G1 & F1 & L1 & Es); trivial; [now split|now left|].
  unfold on_connected. rewrite V, K. cbn [negb]. rewrite E1. cbn [bind]. rewrite G1. set (s2 := set_cb true s1) in *.
  assert (E2 : stk s2 = stk s) by (unfold s2; now rewrite Es). assert (A2 : az s2 = az s) by (unfold s2; now rewrite Es). assert (C2 : cl s2 = cl s) by (unfold s2; now rewrite Es).
  assert (Fail : forall z, z <> 0%Z -> exists s', calls no_write (both (fun b => NConn b (a_req (az s2 a)) z None)) (JConn a false true) s2 = Go s' /\ Inv s').
  { intros z Z. apply (calls_ok _ _ _ (stk s)); trivial. rewrite A2. now apply L1. }
  cbn [kont_of] in *. destruct ok; cbn [negb]; [|apply Fail; destruct pipe; discriminate].
  destruct (cl s2) eqn:C; [now apply Fail|]. destruct f as [f|]; [|now apply Fail].
  pose proof (full_make_conn (JConn a false true) (JConn a true true) _ s2 h f false F1) as F3.
  assert (F4 : Full (JConn a true true :: konts (stk s)) (fst (make_conn h f false s2))).
  { apply F3; trivial; [cbn; unfold stream; now rewrite A2, K|]. cbn [fd_fresh] in Fr. unfold s2. rewrite Es. exact Fr. }
  assert (L3 : Lt (Frame [tell false (a_req (az s a)) false 0 (Some (nc s2))] (JConn a true true) :: stk s) (emit (tell false (a_req (az s a)) true 0 (Some (nc s2))) (fst (make_conn h f false s2)))).
  { apply (T_birth _ _ s2 false (a_req (az s a)) 1 (JConn a false true) _ h f false F1); trivial; [right; auto|discriminate|]. now apply L1. }
  destruct (make_conn h f false s2) as [s3 c] eqn:M. assert (Ec : c = nc s2) by (unfold make_conn in M; now injection M as _ <-). cbn [fst] in *. subst c.
  assert (E3 : stk s3 = stk s /\ az s3 = az s) by (unfold make_conn in M; injection M as <-; now rewrite <- E2, <- A2). destruct E3 as [E3 A3].
  unfold calls. cbn [both call]. eexists. split; [reflexivity|]. rewrite A3.
  apply (inv_intro _ (Frame [NConn false (a_req (az s a)) 0 (Some (nc s2))] (JConn a true true) :: stk s) (JConn a true true :: konts (stk s))); [samely| |cbn; now rewrite E3|reflexivity].
  exact (T_silent _ _ _ (silent_stk (emit _ s3) _) L3).
Qed.

Lemma step_resolved a ip o s : Inv s -> in_loop s = false -> In (PDns a) (pend s) -> fd_fresh (o_file o) s = true -> exists s', on_resolved a ip o s = Go s' /\ Inv s'.
Proof.
  intros H NU I Fr. destruct H as [F L]. destruct (f_p _ _ F _ I) as (lis & K).
  assert (V : a_live (az s a) = true) by (apply (a_ok _ _ _ _ _ (f_core _ _ F)); unfold araw; apply in_app_iff; right; apply in_flat_map; exists (PDns a); split; [exact I|now left]).
  destruct (fire s (PDns a) a) as (s1 & E1 & G1 & F1 & L1 & Es); trivial; [now split|now right|].
  unfold on_resolved. rewrite V, K. cbn [negb]. rewrite E1. cbn [bind]. rewrite G1. set (s2 := set_cb true s1) in *.
  assert (E2 : stk s2 = stk s) by (unfold s2; now rewrite Es). assert (C2 : cl s2 = cl s) by (unfold s2; now rewrite Es).
  assert (Fr2 : fd_fresh (o_file o) s2 = true) by (unfold s2; rewrite Es; exact Fr).
  cbn [kont_of] in *. set (r := a_req (az s a)) in *. specialize (L1 E_DNS ltac:(discriminate)).
  assert (Fail : forall s', Full (JName a true :: konts (stk s)) s' -> Lt (Frame (ask r E_DNS) (JName a true) :: stk s) s' -> stk s' = stk s -> exists s'', calls no_write (both (fun b => NConn b r E_DNS None)) (JName a true) s' = Go s'' /\ Inv s'').
  { intros s' F' L' E'. now apply (calls_ok _ _ _ (stk s)). }
  destruct ip as [ip|]; [|now apply Fail]. destruct (cl s2) eqn:C; [now apply Fail|].
  destruct (get_loop_ok _ _ o _ F1 L1 C) as [->|(s3 & -> & F3 & L3 & P3 & E3 & C3 & D3 & _)]; [now apply Fail|].
  rewrite E2 in E3. apply (T_addr _ _ r ip) in L3. assert (F4 : Full (JName a true :: konts (stk s)) (emit (NAddr r ip) s3)) by samely. set (s4 := emit (NAddr r ip) s3) in *.
  assert (Fr4 : fd_fresh (o_file o) s4 = true) by (change (fd_fresh (o_file o) s4) with (fd_fresh (o_file o) s3); now rewrite D3).
  destruct lis.
  - destruct (listen_on_ok _ s4 false o F4 P3 Fr4) as [(s5 & z & -> & Z & F5 & S5 & E5)|(f & s5 & K5 & -> & S5 & E5 & F5 & F6)]; cbn [bind].
    + apply Fail; trivial; [now apply (T_silent _ s4)|]. rewrite E5. exact E3.
    + unfold calls. cbn [both call]. eexists. split; [reflexivity|].
      assert (L5 := T_silent _ _ _ S5 L3). assert (C5 : cl s5 = false) by (now rewrite (z_cl _ _ S5)).
      assert (L6 : Lt (Frame [tell false r false 0 (Some (nc s5))] (JName a true) :: stk s) (emit (tell false r true 0 (Some (nc s5))) (fst (make_conn (nh s4) f true s5)))).
      { apply (T_birth _ _ s5 false r E_DNS (JName a true) _ (nh s4) f true F5); trivial; [now left|discriminate]. }
      set (s6 := fst (make_conn _ _ _ _)) in *. assert (E6 : stk s6 = stk s) by (change (stk s5 = stk s); rewrite E5; exact E3).
      apply (inv_intro _ (Frame [NConn false r 0 (Some (nc s5))] (JName a true) :: stk s) (JName a true :: konts (stk s))); [samely| |now rewrite <- E6|reflexivity].
      exact (T_silent _ _ _ (silent_stk (emit _ s6) _) L6).
  - destruct (connect_on_ok _ s4 false r o F4 P3) as [(s5 & z & -> & Z & F5 & S5 & E5)|(s5 & b & -> & F5 & S5 & A5 & E5)]; cbn [bind].
    + destruct (Z.eqb_spec z 0); [contradiction|]. apply Fail; trivial; [now apply (T_silent _ s4)|]. rewrite E5. exact E3.
    + cbn [Z.eqb]. apply (run_ok no_write (JName a true) (stk s)); trivial; [|change (stk s5 = stk s); rewrite E5; exact E3].
      apply (T_accept _ _ _ _ b r E_DNS); auto; [rewrite (z_lp _ _ S5); exact P3|]. now apply (T_silent _ s4).
Qed.

(** The connection of a handle libuv watches. *)
Lemma watched K s h : Full K s -> h_st (hs s h) = HOpen -> h_use (hs s h) <> UNone -> exists c, h_data (hs s h) = DConn c /\ k_live (cs s c) = true /\ k_st (cs s c) <> Disconnected.
Proof.
  intros [C _ _] O U. pose proof (h_ok _ _ _ _ _ C h) as X. unfold hok in X. rewrite O in X. destruct X as [X|(c & D & I & E)].
  - apply (r_h _ _ _ _ _ C) in X. destruct X as (_ & _ & _ & X). contradiction.
  - exists c. split; [exact D|]. destruct (p_c _ _ _ _ _ C _ _ I) as (V & _ & _ & _ & _ & _ & S). split; [exact V|]. destruct S as [S|[S _]]; rewrite S; discriminate.
Qed.

Lemma step_accept h ok acc f s : Inv s -> in_loop s = false -> h_st (hs s h) = HOpen -> h_use (hs s h) = UListen -> fd_fresh f s = true -> exists s', on_accept h ok acc f s = Go s' /\ Inv s'.
Proof.
  intros [F L] NU O U Fr. destruct (watched _ _ h F O) as (l & D & V & S); [rewrite U; discriminate|].
  assert (Cb : cb s = false) by (now rewrite (i_cb _ _ L)). assert (P : lp s = true) by (now apply (live_lp _ _ _ l F L)).
  unfold on_accept. rewrite D, V. cbn [negb]. unfold guard. rewrite Cb. set (s1 := set_cb true s).
  assert (L1 : forall k z, z <> 0%Z -> (exists x, k = JAcc x true) -> Lt (Frame (both (fun b => NAcc b l z None)) k :: stk s) s1).
  { intros k z Z (x & ->). apply T_push; trivial; [intros n [<-|[<-|[]]]; now split|intros n [<-|[<-|[]]]; cbn; split; congruence|apply paired_acc]. }
  assert (F1 : Full (konts (stk s)) s1) by samely.
  assert (Fail : forall x z s', z <> 0%Z -> Full (JAcc x true :: konts (stk s)) s' -> silent s1 s' -> stk s' = stk s -> exists s'', calls no_write (both (fun b => NAcc b l z None)) (JAcc x true) s' = Go s'' /\ Inv s'').
  { intros x z s' Z F' S' E'. apply (calls_ok _ _ _ (stk s)); trivial. apply (T_silent _ s1); trivial. apply L1; eauto. }
  destruct ok; cbn [negb]; [|apply Fail; trivial; [destruct (h_pipe _), (cl s1); discriminate|now apply full_add|apply silent_refl]].
  pose proof (full_new_handle _ s1 (h_pipe (hs s h)) true F1) as F2. pose proof (silent_handle s1 (h_pipe (hs s h)) P) as S2.
  assert (Fr2 : fd_fresh f (fst (new_handle (h_pipe (hs s h)) s1)) = true) by (destruct f as [f|]; trivial; now apply fd_free_handle).
  destruct (new_handle (h_pipe (hs s h)) s1) as [s2 n] eqn:EN. assert (En : n = nh s1) by (unfold new_handle in EN; congruence). assert (E2 : stk s2 = stk s) by (unfold new_handle in EN; injection EN as <- _; reflexivity). cbn [fst] in *. subst n.
  destruct acc; cbn [negb]; [|apply Fail; trivial; destruct (h_pipe _), (cl s2); discriminate].
  destruct (cl s2) eqn:C2; [now apply Fail|]. destruct f as [f|]; [|apply Fail; trivial; destruct (h_pipe _); discriminate].
  assert (F3 : Full (JAcc None true :: konts (stk s)) (fst (make_conn (nh s1) f false s2))) by (now apply (full_make_conn (JAcc (Some (nh s1)) true))).
  assert (L3 : Lt (Frame [tell true l false 0 (Some (nc s2))] (JAcc None true) :: stk s) (emit (tell true l true 0 (Some (nc s2))) (fst (make_conn (nh s1) f false s2)))).
  { apply (T_birth _ _ s2 true l 1 (JAcc (Some (nh s1)) true) _ (nh s1) f false F2); trivial; [right; auto|discriminate|]. apply (T_silent _ s1); trivial. apply L1; [discriminate|eauto]. }
  destruct (make_conn (nh s1) f false s2) as [s3 c] eqn:M. assert (Ec : c = nc s2) by (unfold make_conn in M; now injection M as _ <-). cbn [fst] in *. subst c.
  assert (E3 : stk s3 = stk s) by (unfold make_conn in M; injection M as <-; now rewrite <- E2).
  unfold calls. cbn [both call]. eexists. split; [reflexivity|].
  apply (inv_intro _ (Frame [NAcc false l 0 (Some (nc s2))] (JAcc None true) :: stk s) (JAcc None true :: konts (stk s))); [samely| |cbn; now rewrite E3|reflexivity].
  exact (T_silent _ _ _ (silent_stk (emit _ s3) _) L3).
Qed.

Lemma step_read h x s : Inv s -> in_loop s = false -> h_st (hs s h) = HOpen -> h_use (hs s h) = URead -> exists s', on_read h x s = Go s' /\ Inv s'.
Proof.
  intros [F L] NU O U. destruct (watched _ _ h F O) as (c & D & V & S); [rewrite U; discriminate|].
  assert (Cb : cb s = false) by (now rewrite (i_cb _ _ L)).
  unfold on_read. rewrite D, V. cbn [negb]. unfold guard. rewrite Cb. set (s1 := set_cb true s).
  assert (F1 : Full (konts (stk s)) s1) by samely.
  assert (Quiet : Inv (unguard true s1)).
  { apply (inv_intro _ (stk s) (konts (stk s))); trivial; [samely|]. apply (T_silent _ s); trivial. constructor; trivial; auto. }
  assert (Run : forall l k, (forall n, In n l -> owed s n /\ code_ok n) -> (forall b r, cnt (is_ans b r) l = 0) -> paired l -> (exists w, k = JRead c w true \/ k = JFail c w true) -> exists s', calls no_write l k s1 = Go s' /\ Inv s').
  { intros l k Hl An Pr (w & Ek). assert (Uk : uvk k = true /\ plain k = true /\ kflag k = true) by (destruct Ek as [-> | ->]; auto). destruct Uk as (Uk & Pk & Gk).
    apply (calls_ok _ _ _ (stk s)); trivial; [apply full_add; trivial; destruct Ek as [-> | ->]; trivial; now split|]. apply T_push; trivial; intros n I; now apply Hl. }
  change (cs s1) with (cs s). destruct (st_eqb (k_st (cs s c)) Connected) eqn:Sc; cbn [negb]; [|eexists; split; [reflexivity|exact Quiet]].
  destruct x as [over|reset|n free].
  - destruct over; [|eexists; split; [reflexivity|exact Quiet]]. apply (Run [] (JRead c true true)); [contradiction|reflexivity|apply paired_nil|exists true; now left].
  - apply Run; [intros n [<-|[<-|[]]]; split; trivial; now split|reflexivity|apply paired_recv|exists reset; now right].
  - apply Run; [|intros b r; now apply cnt_times|apply paired_times, paired_recv|exists free; now left]. intros m I. refine (in_times (fun m => owed s m /\ code_ok m) _ _ m _ I). intros b. split; [now split|exact Logic.I].
Qed.

Lemma step_written c o s : Inv s -> in_loop s = false -> In (PWrite c) (pend s) -> exists s', on_written c o s = Go s' /\ Inv s'.
Proof.
  intros [F L] NU I. assert (Q := quiet_konts _ NU). pose proof (f_core _ _ F) as C.
  assert (IW : In c (wraw (konts (stk s)) s)) by (unfold wraw; apply in_app_iff; right; apply in_flat_map; exists (PWrite c); split; [exact I|now left]).
  apply (w_c _ _ _ _ _ C) in IW. destruct IW as [V W].
  assert (S : k_st (cs s c) <> Disconnected).
  { destruct (l_c _ _ _ _ _ C c V) as (_ & [X|X]); [apply (p_c _ _ _ _ _ C) in X; destruct X as (_ & _ & _ & _ & _ & _ & [X|[X _]]); rewrite X; discriminate|].
    apply (g_c _ _ _ _ _ C) in X. destruct X as (_ & _ & _ & _ & [[X _]|(_ & _ & X)]); [rewrite X; discriminate|]. rewrite quiet_gone in X by trivial. destruct X. }
  assert (Cb : cb s = false) by (now rewrite (i_cb _ _ L)).
  unfold on_written. rewrite V. cbn [negb].
  destruct (full_req_end _ s (PWrite c) true F I) as (s1 & E1 & Es & F1); [now split|]. rewrite E1. cbn [bind]. unfold guard. rewrite Es. cbn [cb set_pend]. rewrite Cb. rewrite <- Es.
  cbn [kont_of] in F1. apply (calls_ok _ _ _ (stk s)); trivial; [samely| |now rewrite Es]. replace (k_fly (cs (set_cb true s1) c)) with (k_fly (cs s c)) by (now rewrite Es).
  apply T_push; trivial.
  - intros n. apply in_times. intros b. cbn. unfold alive. rewrite Es. now split.
  - intros n. apply in_times. intros b. exact Logic.I.
  - intros b r. now apply cnt_times.
  - apply paired_times, paired_writ.
  - rewrite Es. now apply T_dropw.
Qed.

Lemma step_closed h w s : Inv s -> in_loop s = false -> h_st (hs s h) = HClosing w -> flushed h s = true -> exists s', on_closed h w s = Go s' /\ Inv s'.
Proof.
  intros [F L] NU O Fl. assert (Q := quiet_konts _ NU). assert (Cb : cb s = false) by (now rewrite (i_cb _ _ L)). destruct w.
  - destruct (full_closed_conn _ s h true F Q O Fl) as (c & D & V & S & Eh & Gc & F1).
    unfold on_closed. set (s1 := on_h h (h_state HClosed) s) in *. assert (D1 : h_data (hs s1 h) = DConn c) by (unfold s1; cbn; rewrite upd_same; exact D). rewrite D1. change (cs s1) with (cs s). rewrite V. cbn [negb]. unfold guard. change (cb s1) with (cb s). rewrite Cb.
    change (find_gc c (set_cb true s1)) with (find_gc c s). rewrite Gc. unfold calls. cbn [both call]. eexists. split; [reflexivity|].
    apply (inv_intro _ (Frame [NDisc false c] (JGone c (gv s) true) :: stk s) (JGone c (gv s) true :: konts (stk s))); [samely| |reflexivity|reflexivity].
    assert (X : Lt (Frame [NDisc false c] (JGone c (gv s) true) :: stk s) (emit (NDisc true c) (set_cb true (on_c c (c_st Disconnected) s1)))).
    { apply T_gone; trivial; [now apply (full_live _ _ _ F)|]. unfold hold. now rewrite O. }
    revert X. apply T_silent. constructor; trivial; auto.
  - destruct (full_closed_async _ s h F O) as (v & a & E & F1 & Hv & Hh & Na). exists (set_hs v (free_async a s)). split; [exact E|]. apply (inv_intro _ (stk s) (konts (stk s))); trivial. apply (T_silent _ s); trivial.
    apply (silent_trans s (free_async a s)); [apply silent_free|]. apply silent_hs. intros j X. destruct (Nat.eq_dec j h) as [->|N]; [unfold hold in X; now rewrite Hh in X|]. rewrite Hv in X |- * by trivial. auto.
  - destruct (full_closed_ptr _ s h F O) as (v & E & F1 & Hv & Hh). exists (set_hs v s). split; [exact E|]. apply (inv_intro _ (stk s) (konts (stk s))); trivial. apply (T_silent _ s); trivial.
    apply silent_hs. intros j X. destruct (Nat.eq_dec j h) as [->|N]; [unfold hold in X; now rewrite Hh in X|]. rewrite Hv in X |- * by trivial. auto.
Qed.

(** * Closing the channel *)
Lemma all_dead K s : Full K s -> pool s = [] -> gc s = [] -> forall c, k_live (cs s c) = false.
Proof. intros [C _ _] P G c. destruct (k_live (cs s c)) eqn:V; trivial. apply (l_c _ _ _ _ _ C) in V. rewrite P, G in V. destruct V as (_ & [[]|[]]). Qed.
Lemma nil_of {A} (l : list A) : is_nil l = true -> l = [].
Proof. destruct l; [trivial|discriminate]. Qed.
Lemma wait_lp fs s p g : Lt (Wait p g :: fs) s -> forall K, Full K s -> lp s = false -> (forall c, k_live (cs s c) = false) /\ pend s = [].
Proof. intros L K F P. split; [|now apply (i_lp _ _ L)]. intros c. destruct (k_live (cs s c)) eqn:V; trivial. now rewrite (live_lp _ _ _ _ F L V) in P. Qed.

Lemma step_wake s r : Inv s -> wake s = Some r -> exists s', r = Go s' /\ Inv s'.
Proof.
  intros [F L]. unfold wake. destruct (stk s) as [|[|p g] fs] eqn:E; try discriminate. destruct (wait_top _ _ _ _ L) as (NU & -> & NW).
  assert (Q : quiet (konts fs)) by (now apply quiet_konts). change (konts (Wait p true :: fs)) with (konts fs) in F.
  assert (Fin : (forall h, hold (hs s h) = false) -> pend s = [] -> Inv (finish true (set_stk fs s))).
  { intros H P. apply (inv_intro _ fs (konts fs)); trivial; [samely|]. unfold finish. cbn [ow set_stk]. apply (T_finish fs (set_stk fs s) p true); trivial. revert L. apply T_silent. apply silent_stk. }
  destruct p.
  - destruct (is_nil (pool s) && is_nil (gc s)) eqn:N.
    + apply andb_true_iff in N. destruct N as [N1 N2]. apply nil_of in N1. apply nil_of in N2. intros X. injection X as <-. eexists. split; [reflexivity|].
      apply (inv_intro _ (Wait WReq true :: fs) (konts fs)); trivial; [samely|]. apply (T_silent _ s); [apply silent_stk|]. apply T_wreq; trivial. now apply (all_dead (konts fs)).
    + destruct (lp s) eqn:P; [discriminate|]. destruct (wait_lp _ _ _ _ L _ F P) as [D _]. exfalso.
      assert (pool s = []) as X1. { destruct (pool s) as [|[f c] l] eqn:X; trivial. assert (In (f, c) (pool s)) by (rewrite X; now left). apply (p_c _ _ _ _ _ (f_core _ _ F)) in H. now rewrite D in H. }
      assert (gc s = []) as X2. { destruct (gc s) as [|[f c] l] eqn:X; trivial. assert (In (f, c) (gc s)) by (rewrite X; now left). apply (g_c _ _ _ _ _ (f_core _ _ F)) in H. now rewrite D in H. }
      rewrite X1, X2 in N. discriminate.
  - assert (D := i_req _ _ L true (or_introl eq_refl)). rewrite (n_req _ _ _ _ _ (f_core _ _ F)). destruct (pend s) as [|q l] eqn:P.
    + intros X. injection X as <-. eexists. split; [reflexivity|]. apply Fin; trivial. now apply (no_hold (konts fs)).
    + destruct (lp s) eqn:Lp; [discriminate|]. rewrite (i_lp _ _ L Lp) in P. discriminate.
  - destruct (own_done s) eqn:OD; [|discriminate]. intros X. injection X as <-. eexists. split; [reflexivity|]. unfold own_done in OD. apply andb_true_iff in OD. destruct OD as [O1 O2]. assert (P : pend s = []) by (destruct (pend s); [trivial|discriminate]).
    apply Fin; trivial. intros h. destruct (hold (hs s h)) eqn:Hh; trivial. exfalso. destruct (i_own _ _ L h Hh) as [_ Ow]. pose proof (proj1 (i_ow _ _ L WOwn true (or_introl eq_refl)) eq_refl) as X. apply andb_true_iff in X. destruct X as [X _]. rewrite X in Ow.
    assert (N : h < nh s). { destruct (Nat.lt_ge_cases h (nh s)) as [|N]; trivial. apply (h_out _ _ _ _ _ (f_core _ _ F)) in N. unfold hold in Hh. now rewrite N in Hh. }
    rewrite forallb_forall in O1. specialize (O1 h ltac:(apply in_seq; lia)). unfold hold in Hh. pose proof (h_ok _ _ _ _ _ (f_core _ _ F) h) as HO. unfold hok in HO.
    destruct (h_st (hs s h)) as [|[]| |]; try discriminate; try (rewrite Ow in O1; discriminate). destruct HO as (c & _ & HO & _). rewrite quiet_gone in HO by trivial. destruct HO.
Qed.

Definition map_res (f : st -> st) (r : res) : res := match r with Go s => Go (f s) | x => x end.
Lemma disc_cl c d force b s : disc_inner false c d force (set_cl b s) = map_res (set_cl b) (disc_inner false c d force s).
Proof.
  unfold disc_inner. change (cs (emit (NAsk c d) (on_c c (c_disc d) (set_cl b s)))) with (cs (emit (NAsk c d) (on_c c (c_disc d) s))). destruct (negb (st_eqb _ _)); [reflexivity|].
  set (s1 := on_c c (c_st Disconnecting) (emit (NAsk c d) (on_c c (c_disc d) s))). change (on_c c (c_st Disconnecting) (emit (NAsk c d) (on_c c (c_disc d) (set_cl b s)))) with (set_cl b s1). change (cs (set_cl b s1)) with (cs s1). destruct (_ && _); [reflexivity|].
  unfold disc_run. change (cs (set_cl b s1)) with (cs s1). destruct (k_cl _); [reflexivity|]. set (s2 := on_c c c_closing s1). change (on_c c c_closing (set_cl b s1)) with (set_cl b s2).
  unfold shut_conn. change (find_pool (k_fd (cs (set_cl b s2) c)) (set_cl b s2)) with (find_pool (k_fd (cs s2 c)) s2). change (hs (set_cl b s2)) with (hs s2). change (cs (set_cl b s2)) with (cs s2). destruct (h_data _); trivial. destruct (find_pool _ _); trivial. destruct (_ =? c); trivial.
  unfold uv_close.
  cbn [hs set_pool set_gc]. destruct (is_open _); reflexivity.
Qed.
Lemma disc_all_cl l b s : disc_all l (set_cl b s) = map_res (set_cl b) (disc_all l s).
Proof. revert s. induction l as [|c l IH]; intros s; trivial. cbn [disc_all]. rewrite disc_cl. destruct (disc_inner false c None false s); trivial. cbn [map_res bind]. apply IH. Qed.

Lemma disc_all_ok K fs l s : Full K s -> Lt fs s -> (forall c, In c l -> k_live (cs s c) = true) -> exists s', disc_all l s = Go s' /\ Full K s' /\ Lt fs s' /\ frameq s s' /\ (forall c, k_live (cs s' c) = k_live (cs s c)) /\
  (forall c, In c l \/ k_st (cs s c) <> Connected -> k_st (cs s' c) <> Connected).
Proof.
  revert s. induction l as [|c l IH]; intros s F L V.
  - exists s. split; [reflexivity|]. split; [exact F|]. split; [exact L|]. split; [constructor; reflexivity|]. split; [reflexivity|]. intros c [[]|]; trivial.
  - cbn [disc_all]. assert (Vc := V c (or_introl eq_refl)). destruct (full_disc K s c None false F Vc) as (s1 & -> & F1 & A). cbn [bind].
    assert (V1 : forall d, k_live (cs s1 d) = k_live (cs s d)) by (intros d; destruct (Nat.eq_dec d c) as [->|N]; [rewrite Vc; apply (k_live' _ _ _ _ A)|now rewrite (k_others _ _ _ _ A)]).
    destruct (IH s1 F1) as (s2 & E2 & F2 & L2 & Q2 & V2 & S2); [apply (T_ask _ s s1 c None); trivial; now apply (full_live _ _ _ F)|intros d I; rewrite V1; apply V; now right|].
    exists s2. split; [exact E2|]. split; [exact F2|]. split; [exact L2|]. split; [|split].
    + destruct Q2, (k_frame _ _ _ _ A). constructor; congruence.
    + intros d. now rewrite V2, V1.
    + assert (Sc : k_st (cs s1 c) <> Connected) by (rewrite (k_st' _ _ _ _ A); apply step_conn).
      intros d X. apply S2. destruct (Nat.eq_dec d c) as [->|N]; [now right|]. rewrite (k_others _ _ _ _ A) by trivial. destruct X as [[X|X]|X]; [congruence|now left|now right].
Qed.

Lemma step_close s : Inv s -> if cb s then close s = Aborted else exists s', close s = Go s' /\ (user_turn s = true -> Inv s').
Proof.
  intros [F L]. unfold close. change (cb (set_cl true s)) with (cb s). destruct (cb s) eqn:Cb; [reflexivity|]. pose proof (f_core _ _ F) as C.
  change (pool (set_cl true s)) with (pool s). rewrite disc_all_cl.
  destruct (disc_all_ok _ _ (map snd (pool s)) s F L) as (s' & -> & F' & L' & Q & V & S).
  { intros c I. apply in_map_iff in I. destruct I as ((f & d) & <- & I). now apply (p_c _ _ _ _ _ C) in I. }
  cbn [map_res bind]. eexists. split; [reflexivity|]. intros UT.
  assert (NU : existsb is_uv (stk s) = false) by (now rewrite <- (i_cb _ _ L)).
  assert (Cl : cl s = false).
  { rewrite (i_cl _ _ L). destruct (existsb is_wait (stk s)) eqn:W; trivial. apply existsb_exists in W. destruct W as (f & I & X). destruct f as [|p g]; [discriminate|]. apply in_split in I. destruct I as (u & v & E).
    destruct (i_shape _ _ L _ _ _ _ E) as [_ [->|(f & -> & Uf)]]; [unfold user_turn in UT; now rewrite E in UT|]. rewrite E in NU. cbn in NU. now rewrite Uf in NU. }
  assert (Al : forall c, k_live (cs s' c) = true -> k_st (cs s' c) <> Connected).
  { intros c. rewrite V. intros Vc. apply S. destruct (k_st (cs s c)) eqn:Sc; [left|right; discriminate|right; discriminate].
    apply (in_map snd _ (k_fd (cs s c), c)). apply (pool_or_gc _ _ _ F Vc). now apply (connected_open _ _ _ F). }
  set (p := if ow (set_cl true s') && lp (set_cl true s') then WOwn else WPool). replace (negb (cl s)) with true by (now rewrite Cl).
  apply (inv_intro _ (Wait p true :: stk s) (konts (stk s))); [samely| |cbn; now rewrite (q_stk _ _ Q)|reflexivity].
  apply (T_silent _ (set_cl true s')); [apply silent_stk|]. apply T_closing; trivial; [now rewrite (q_cl _ _ Q)|unfold p; destruct (_ && _); discriminate|unfold p; cbn [ow lp set_cl]; destruct (ow s' && lp s'); split; congruence].
Qed.

(** * Every event *)
(** A disconnect inside a disconnected callback must not make the table of closing connections
    rehash: see [C61_rehash_refuted]. *)
Definition calm s (e : ev) : Prop := match e with ADisc _ _ true | ADiscFd _ _ true => gone (konts (stk s)) = [] | _ => True end.

Theorem step_inv s e r : Inv s -> calm s e -> step s e = Some r -> (exists s', r = Go s' /\ Inv s') \/ r = Aborted /\ e = AClose /\ cb s = true.
Proof.
  intros H Cm. pose proof H as [F L]. destruct e; cbn [step].
  - destruct (negb (lp s) && is_nil (stk s)) eqn:G; [|discriminate]. apply andb_true_iff in G. destruct G as [G1 G2]. apply negb_true_iff in G1. apply nil_of in G2. intros E. injection E as <-. left. eexists. split; [reflexivity|].
    rewrite G2 in *. apply (inv_intro _ [] []); trivial; [samely|]. now apply T_init.
  - destruct (user_turn s && fd_fresh (o_file o) s) eqn:G; [|discriminate]. apply andb_true_iff in G. intros E. injection E as <-. left. now apply step_listen.
  - destruct (user_turn s); [|discriminate]. intros E. injection E as <-. left. now apply step_connect.
  - destruct (user_turn s && k_live (cs s c)) eqn:G; [|discriminate]. apply andb_true_iff in G. intros E. injection E as <-. left. apply step_disc; trivial; [apply G|]. intros ->. exact Cm.
  - destruct (user_turn s); [|discriminate]. destruct (find_pool f s) as [c|] eqn:Fp; intros E; injection E as <-; left; [|eauto]. apply find_pool_some in Fp. apply (p_c _ _ _ _ _ (f_core _ _ F)) in Fp. apply step_disc; trivial; [apply Fp|]. intros ->. exact Cm.
  - destruct (user_turn s && k_live (cs s c)) eqn:G; [|discriminate]. apply andb_true_iff in G. intros E. injection E as <-. left. eexists. split; [reflexivity|]. now apply step_send.
  - destruct (user_turn s) eqn:G; [|discriminate]. intros E. injection E as <-. pose proof (step_close s H) as X. destruct (cb s); [now right|]. destruct X as (s' & -> & X). left. eauto.
  - intros E. left. now apply (step_resume o s).
  - destruct (negb (in_loop s) && has (PConn a) s && fd_fresh f s) eqn:G; [|discriminate]. rewrite !andb_true_iff, negb_true_iff in G. intros E. injection E as <-. left. apply step_connected; try apply has_in; apply G || exact H.
  - destruct (negb (in_loop s) && has (PDns a) s && fd_fresh (o_file o) s) eqn:G; [|discriminate]. rewrite !andb_true_iff, negb_true_iff in G. intros E. injection E as <-. left. apply step_resolved; try apply has_in; apply G || exact H.
  - destruct (_ && _ && _ && _) eqn:G; [|discriminate]. rewrite !andb_true_iff, negb_true_iff in G. destruct G as [[[G1 G2] G3] G4]. intros E. injection E as <-. left. apply step_accept; trivial; [unfold is_open in G2; now destruct (h_st _)|now destruct (h_use _)].
  - destruct (_ && _ && _) eqn:G; [|discriminate]. rewrite !andb_true_iff, negb_true_iff in G. destruct G as [[G1 G2] G3]. intros E. injection E as <-. left. apply step_read; trivial; [unfold is_open in G2; now destruct (h_st _)|now destruct (h_use _)].
  - destruct (_ && _) eqn:G; [|discriminate]. rewrite !andb_true_iff, negb_true_iff in G. destruct G as [G1 G2]. intros E. injection E as <-. left. apply step_written; trivial. now apply has_in.
  - destruct (h_st (hs s h)) as [|w| |] eqn:Hs; try discriminate. destruct (_ && _) eqn:G; [|discriminate]. rewrite !andb_true_iff, negb_true_iff in G. destruct G as [G1 G2]. intros E. injection E as <-. left. now apply step_closed.
  - intros E. left. now apply (step_wake s).
Qed.

Lemma inv0 : Inv st0.
Proof.
  split.
  - split; [|contradiction|contradiction]. constructor; cbn; try constructor; try contradiction; try discriminate; trivial; intros; try lia; try (destruct H; discriminate); tauto || idtac.
  - constructor; cbn; trivial; try contradiction; try discriminate; try lia; try (intros; destruct u; discriminate).
    intros x q z c y E. destruct x; discriminate.
Qed.
