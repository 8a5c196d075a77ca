(** The invariant of the connection machine: IoConnInv.v for the objects, and here the stack,
    the loop, the log of each connection and the answers to the requests.  A function that has
    not made its callbacks yet is treated as a frame on top of the stack ([fs]). *)
From Coq Require Import Permutation.
From Verif Require Import Base IoConn IoConnInv IoConnSpec.
Ltac Zify.zify_post_hook ::= idtac.

Definition konts (fs : list frame) : list kont := flat_map (fun f => match f with Frame _ k => [k] | Wait _ _ => [] end) fs.
Definition rests (fs : list frame) : list note := flat_map (fun f => match f with Frame l _ => l | Wait _ _ => [] end) fs.
Definition is_wait (f : frame) : bool := match f with Wait _ _ => true | _ => false end.
Definition is_jret (f : frame) : bool := match f with Frame _ (JRet _) => true | _ => false end.
Definition kflag (k : kont) : bool := match k with JRet _ => true | JName _ g | JConn _ _ g | JAcc _ g | JGone _ _ g | JErase _ _ g | JRead _ _ g | JFail _ _ g | JWrit _ g | JCanc _ g => g end.
Definition gflag (f : frame) : bool := match f with Wait _ g => g | Frame _ k => kflag k end.

Definition outs (r : nat) s : nat := cnt (fun p => match p with PConn a | PDns a => a_req (az s a) =? r | PWrite _ => false end) (pend s).
Definition jret (r : nat) (fs : list frame) : nat := cnt (fun f => match f with Frame _ (JRet r') => r' =? r | _ => false end) fs.

(** A connection and what its log says. *)
Definition lok s c (p : option life) : Prop :=
  if c <? nc s then
    if k_live (cs s c) then
      match k_st (cs s c) with
      | Connected => p = Some (Alive None)
      | Disconnecting => p = Some (Alive (Some (k_disc (cs s c))))
      | Disconnected => p = Some (Parting (k_disc (cs s c))) \/ p = Some (Parted (k_disc (cs s c))) \/ p = Some Called
      end
    else p = Some (Parted None) \/ p = Some Called
  else p = Some Unborn.

Definition alive s c : Prop := k_live (cs s c) = true /\ k_st (cs s c) <> Disconnected.
Definition owed s (n : note) : Prop :=
  match n with
  | NConn _ _ _ None => True
  | NConn b _ _ (Some c) => b = false /\ alive s c
  | NAcc _ l _ None => alive s l
  | NAcc b l _ (Some c) => b = false /\ alive s l /\ alive s c
  | NRecv _ c | NWrit _ c => alive s c
  | _ => False
  end.
Definition fok s (f : frame) : Prop :=
  match f with
  | Wait _ _ => True
  | Frame l (JRet r) => l = [] \/ (exists z, l = both (fun b => NConn b r z None) \/ l = [NConn false r z None]) \/ exists c, c < nc s /\ l = [NConn false r 0%Z (Some c)]
  | Frame l (JGone c _ _) => l = [NDisc false c] /\ lives c (log s) = Some (Parting (k_disc (cs s c))) \/ l = [] /\ lives c (log s) = Some (Parted (k_disc (cs s c)))
  | Frame l (JErase c _ _) => l = [] /\ lives c (log s) = Some Called
  | Frame l _ => forall n, In n l -> owed s n
  end.
(** A second connected callback comes late only inside io_stream_listen. *)
Definition timely (l : list note) : Prop :=
  forall x r z c y, l = x ++ NConn false r z (Some c) :: y -> cnt (is_ret r) x = 0 \/ exists a, lives c x = Some (Alive a).

Record Lt (fs : list frame) (s : st) : Prop := {
  i_uv : cnt is_uv fs <= 1;
  i_g : forall f, In f fs -> gflag f = true;
  i_cb : cb s = existsb is_uv fs;
  i_cl : cl s = existsb is_wait fs;
  i_shape : forall u p g v, fs = u ++ Wait p g :: v -> (forall f, In f v -> is_jret f = true) /\ (u = [] \/ exists f, u = [f] /\ is_uv f = true);
  i_req : forall g, In (Wait WReq g) fs -> forall c, k_live (cs s c) = false;
  i_ow : forall p g, In (Wait p g) fs -> (p = WOwn <-> ow s && lp s = true);
  i_own : forall h, hold (hs s h) = true -> lp s = true /\ h_own (hs s h) = ow s;
  i_lp : lp s = false -> pend s = [];
  i_cld : cl s = true -> forall c, k_live (cs s c) = true -> k_st (cs s c) <> Connected;
  i_life : forall c, lok s c (lives c (log s));
  i_frm : forall f, In f fs -> fok s f;
  i_code : forall n, In n (log s ++ rests fs) -> code_ok n;
  i_late : timely (log s);
  i_ans : forall r b, cnt (is_ans b r) (log s ++ rests fs) + outs r s = cnt (is_ret0 r) (log s) + jret r fs;
  i_ret : forall r, cnt (is_ret r) (log s) + jret r fs = if r <? nr s then 1 else 0;
  i_twin : forall n m, second n = Some m -> count_occ note_eq_dec (log s ++ rests fs) n = count_occ note_eq_dec (log s ++ rests fs) m }.

Definition Inv s : Prop := Full (konts (stk s)) s /\ Lt (stk s) s.

(** * Counting *)
Lemma cnt_app {A} f (l m : list A) : cnt f (l ++ m) = cnt f l + cnt f m.
Proof. unfold cnt. now rewrite filter_app, app_length. Qed.
Lemma cnt_cons {A} f (x : A) l : cnt f (x :: l) = (if f x then 1 else 0) + cnt f l.
Proof. unfold cnt. cbn. now destruct (f x). Qed.
Lemma cnt_nil {A} (f : A -> bool) : cnt f [] = 0.
Proof. reflexivity. Qed.
Lemma cnt_ext {A} (f g : A -> bool) l : (forall x, In x l -> f x = g x) -> cnt f l = cnt g l.
Proof. intros H. unfold cnt. now rewrite (filter_ext_in f g l). Qed.
Lemma occ_app (l m : list note) x : count_occ note_eq_dec (l ++ m) x = count_occ note_eq_dec l x + count_occ note_eq_dec m x.
Proof. apply count_occ_app. Qed.
Lemma occ_cons (l : list note) n x : count_occ note_eq_dec (n :: l) x = (if note_eq_dec n x then 1 else 0) + count_occ note_eq_dec l x.
Proof. cbn. now destruct (note_eq_dec n x). Qed.
Lemma lives_snoc c l n : lives c (l ++ [n]) = match lives c l with Some p => live1 c p n | None => None end.
Proof. unfold lives. rewrite fold_left_app. reflexivity. Qed.
Lemma cnt_none {A} (f : A -> bool) l : existsb f l = false -> cnt f l = 0.
Proof. unfold cnt. induction l as [|x l IH]; cbn; trivial. now destruct (f x). Qed.

(** Notes that say nothing about [c]. *)
Definition about (c : nat) (n : note) : bool :=
  match n with
  | NRet _ _ | NAddr _ _ | NClosed | NConn _ _ _ None => false
  | NConn _ _ _ (Some d) => d =? c
  | NAcc _ l _ co => (l =? c) || match co with Some d => d =? c | None => false end
  | NRecv _ d | NWrit _ d | NSent d _ | NAsk d _ | NDisc _ d | NCb d _ => d =? c
  end.
Lemma live1_about c p n : about c n = false -> live1 c p n = Some p.
Proof.
  destruct n as [r z|r i|[] r z [d|]|[] l z [d|]|[] d|d a|d a|b d|b d|d z|]; cbn; trivial; intros H; try (rewrite H; trivial); apply orb_false_iff in H; destruct H as [X Y]; rewrite ?X, ?Y; trivial.
Qed.
Lemma lok_some s c p : lok s c p -> p <> None.
Proof. unfold lok. destruct (_ <? _); [destruct (k_live _); [destruct (k_st _)|]|]; intros; repeat match goal with H : _ \/ _ |- _ => destruct H end; congruence. Qed.
Lemma lives_about s c l n : lok s c (lives c l) -> about c n = false -> lives c (l ++ [n]) = lives c l.
Proof. intros L A. rewrite lives_snoc. apply lok_some in L. destruct (lives c l); [now apply live1_about|congruence]. Qed.
Lemma timely_snoc l n : timely l -> (forall r z c, n = NConn false r z (Some c) -> cnt (is_ret r) l = 0 \/ exists a, lives c l = Some (Alive a)) -> timely (l ++ [n]).
Proof.
  intros T H x r z c y E. destruct (list_eq_dec note_eq_dec y []) as [->|N].
  - apply app_inj_tail in E. destruct E as [<- ->]. now apply (H r z).
  - destruct (exists_last N) as (y' & m & ->). change (NConn false r z (Some c) :: y' ++ [m]) with ((NConn false r z (Some c) :: y') ++ [m]) in E. rewrite app_assoc in E. apply app_inj_tail in E. destruct E as [-> _]. eapply T; reflexivity.
Qed.

(** * Steps that are not seen *)
Record silent (s s' : st) : Prop := {
  z_log : log s' = log s; z_nr : nr s' = nr s; z_nc : nc s' = nc s; z_cl : cl s' = cl s; z_cb : cb s' = cb s; z_ow : ow s' = ow s; z_lp : lp s' = lp s; z_pend : pend s' = pend s;
  z_req : forall a, In a (flat_map as_p (pend s)) -> a_req (az s' a) = a_req (az s a);
  z_live : forall c, k_live (cs s' c) = k_live (cs s c); z_st : forall c, k_st (cs s' c) = k_st (cs s c); z_disc : forall c, k_disc (cs s' c) = k_disc (cs s c);
  z_hold : forall h, hold (hs s' h) = true -> hold (hs s h) = true /\ h_own (hs s' h) = h_own (hs s h) \/ lp s = true /\ h_own (hs s' h) = ow s }.
Lemma silent_refl s : silent s s.
Proof. constructor; trivial. intros h H. now left. Qed.
Lemma silent_trans s t u : silent s t -> silent t u -> silent s u.
Proof.
  intros [] []. constructor; try congruence.
  - intros a I. rewrite z_req1, z_req0; trivial. now rewrite z_pend0.
  - intros h H. destruct (z_hold1 h H) as [[X Y]|[X Y]]; [|right; split; congruence]. destruct (z_hold0 h X) as [[Z W]|[Z W]]; [left|right]; split; congruence.
Qed.

Lemma lok_view s s' c p : nc s' = nc s -> k_live (cs s' c) = k_live (cs s c) -> k_st (cs s' c) = k_st (cs s c) -> k_disc (cs s' c) = k_disc (cs s c) -> lok s c p -> lok s' c p.
Proof. unfold lok. intros -> -> -> ->. trivial. Qed.
Lemma alive_view s s' c : k_live (cs s' c) = k_live (cs s c) -> k_st (cs s' c) = k_st (cs s c) -> alive s c -> alive s' c.
Proof. unfold alive. intros -> ->. trivial. Qed.
Lemma owed_mono s s' n : (forall c, alive s c -> alive s' c) -> owed s n -> owed s' n.
Proof. intros A. destruct n as [r z|r i|b r z [d|]|b l z [d|]|b d|d a|d a|b d|b d|d z|]; cbn; trivial; intuition auto. Qed.
Lemma fok_mono s s' f : (forall c, alive s c -> alive s' c) -> nc s <= nc s' ->
  (forall l c v g, f = Frame l (JGone c v g) \/ f = Frame l (JErase c v g) -> (lives c (log s') = lives c (log s) \/ lives c (log s) = Some Called /\ lives c (log s') = Some Called) /\ k_disc (cs s' c) = k_disc (cs s c)) -> fok s f -> fok s' f.
Proof.
  intros A N L. destruct f as [l k|]; trivial. destruct k as [r|a g|a o g|h g|d v g|d v g|d f g|d f g|d g|d g]; cbn [fok]; try (intros H n I; apply (owed_mono s); auto; fail).
  - intros [H|[H|(c & H1 & H2)]]; [now left|right; now left|right; right]. exists c. split; trivial. lia.
  - destruct (L l d v g) as [X Y]; [now left|]. rewrite Y. destruct X as [->|[-> ->]]; trivial.
  - destruct (L l d v g) as [X Y]; [now right|]. destruct X as [->|[-> ->]]; trivial.
Qed.

Lemma outs_ext s s' r : pend s' = pend s -> (forall a, In a (flat_map as_p (pend s)) -> a_req (az s' a) = a_req (az s a)) -> outs r s' = outs r s.
Proof.
  intros E H. unfold outs. rewrite E. apply cnt_ext. intros p I. destruct p as [a|a|c]; trivial; rewrite H; trivial; apply in_flat_map; eexists; (split; [exact I|now left]).
Qed.

Lemma T_silent fs s s' : silent s s' -> Lt fs s -> Lt fs s'.
Proof.
  intros [E1 E2 E3 E4 E5 E6 E7 E8 E9 E10 E11 E12 E13] []. constructor; trivial; rewrite ?E1, ?E2, ?E4, ?E5, ?E6, ?E7, ?E8; trivial.
  - intros g I c. rewrite E10. now apply (i_req0 g).
  - intros h H. destruct (E13 h H) as [[X Y]|[X Y]]; [rewrite Y; now apply i_own0|now split].
  - intros H c. rewrite E10, E11. now apply i_cld0.
  - intros c. apply (lok_view s); auto.
  - intros f I. apply (fok_mono s); auto; [intros c; apply alive_view; auto|lia|]. intros l c v g _. rewrite E1. auto.
  - intros r b. rewrite (outs_ext s); auto.
Qed.

(** * Notes that change no life *)
Definition inert s (n : note) : Prop := forall c, lives c (log s ++ [n]) = lives c (log s).
Lemma inert_about s n : (forall c, lok s c (lives c (log s))) -> (forall c, about c n = false) -> inert s n.
Proof. intros L A c. apply (lives_about s); auto. Qed.
Lemma alive_life s c : Forall (fun _ => True) [c] -> lok s c (lives c (log s)) -> alive s c -> c < nc s -> exists a, lives c (log s) = Some (Alive a).
Proof. intros _. unfold lok, alive. intros L [A B] N. apply Nat.ltb_lt in N. rewrite N, A in L. destruct (k_st (cs s c)); [eauto|eauto|congruence]. Qed.
Lemma inert_owed K s n : Full K s -> (forall c, lok s c (lives c (log s))) -> owed s n -> inert s n.
Proof.
  intros F L W c.
  assert (A : forall d, alive s d -> exists a, lives d (log s) = Some (Alive a)).
  { intros d D. apply (alive_life s); auto. destruct F as [C _ _]. now apply (l_c _ _ _ _ _ C d), D. }
  destruct (about c n) eqn:B; [|now apply (lives_about s)]. rewrite lives_snoc.
  destruct n as [r z|r i|b r z [d|]|b l z [d|]|b d|d a|d a|b d|b d|d z|]; cbn in W, B |- *; try contradiction; try discriminate.
  - apply Nat.eqb_eq in B as ->. destruct W as [-> W]. destruct (A _ W) as (a & ->). now rewrite Nat.eqb_refl.
  - destruct W as (-> & W1 & W2). apply orb_true_iff in B. destruct (A _ W1) as (a1 & X1). destruct (A _ W2) as (a2 & X2). destruct (Nat.eqb_spec l c) as [->|N]; [now rewrite X1|]. destruct B as [B|B]; [discriminate|]. rewrite B. apply Nat.eqb_eq in B as ->. now rewrite X2.
  - rewrite orb_false_r in B. rewrite B. apply Nat.eqb_eq in B as ->. destruct (A _ W) as (a & ->). trivial.
  - rewrite B. apply Nat.eqb_eq in B as ->. destruct (A _ W) as (a & ->). trivial.
  - rewrite B. apply Nat.eqb_eq in B as ->. destruct (A _ W) as (a & ->). trivial.
Qed.
Lemma inert_late s r z d : (forall c, lok s c (lives c (log s))) -> d < nc s -> inert s (NConn false r z (Some d)).
Proof.
  intros L N c. destruct (about c (NConn false r z (Some d))) eqn:B; [|now apply (lives_about s)]. rewrite lives_snoc. cbn in *. rewrite B. apply Nat.eqb_eq in B as ->.
  specialize (L c). unfold lok in L. apply Nat.ltb_lt in N. rewrite N in L. destruct (k_live (cs s c)); [destruct (k_st (cs s c))|]; repeat match goal with H : _ \/ _ |- _ => destruct H end; now rewrite ?H, ?L.
Qed.

Lemma emit_lok s n : inert s n -> (forall c, lok s c (lives c (log s))) -> forall c, lok (emit n s) c (lives c (log (emit n s))).
Proof. intros I L c. change (log (emit n s)) with (log s ++ [n]). rewrite I. apply (lok_view s); auto. Qed.
Lemma emit_fok s n f : inert s n -> fok s f -> fok (emit n s) f.
Proof. intros I. apply fok_mono; [auto|cbn; lia|]. intros l c v g _. change (log (emit n s)) with (log s ++ [n]). rewrite I. auto. Qed.

Ltac cn := repeat (rewrite ?cnt_app, ?cnt_cons, ?cnt_nil, ?occ_app, ?occ_cons).

(** The address handed to the system. *)
Lemma T_addr fs s r i : Lt fs s -> Lt fs (emit (NAddr r i) s).
Proof.
  intros [].
  assert (IN : inert s (NAddr r i)) by (apply inert_about; auto).
  constructor; trivial; cbn [log emit].
  - now apply emit_lok.
  - intros f I. apply emit_fok; auto.
  - intros n I. apply in_app_iff in I. destruct I as [I|I]; [apply in_app_iff in I; destruct I as [I|[<-|[]]]; [|exact Logic.I]|]; apply i_code0, in_app_iff; auto.
  - apply timely_snoc; trivial. discriminate.
  - intros q b. specialize (i_ans0 q b). change (outs q (emit (NAddr r i) s)) with (outs q s). revert i_ans0. cn. cbn [is_ans is_ret0]. lia.
  - intros q. specialize (i_ret0 q). revert i_ret0. cn. cbn [is_ret]. now rewrite Nat.add_0_r.
  - intros n m H. specialize (i_twin0 n m H). revert i_twin0. cn. cbn [count_occ]. destruct (note_eq_dec _ n) as [<-|]; [discriminate|]. destruct (note_eq_dec _ m) as [<-|]; [destruct n as [| |[]|[]|[]| | |[]|[]| |]; discriminate|]. lia.
Qed.

(** * Requests *)
Lemma code_app fs s n : code_ok n -> (forall m, In m (log s ++ rests fs) -> code_ok m) -> forall m, In m ((log s ++ [n]) ++ rests fs) -> code_ok m.
Proof. intros H C m I. apply in_app_iff in I. destruct I as [I|I]; [apply in_app_iff in I; destruct I as [I|[<-|[]]]; trivial|]; apply C, in_app_iff; auto. Qed.
(** A note that is neither of two callbacks. *)
Definition lone (n : note) : Prop := second n = None /\ forall m, second m <> Some n.
Lemma twin_lone fs s n : lone n -> (forall x y, second x = Some y -> count_occ note_eq_dec (log s ++ rests fs) x = count_occ note_eq_dec (log s ++ rests fs) y) ->
  forall x y, second x = Some y -> count_occ note_eq_dec ((log s ++ [n]) ++ rests fs) x = count_occ note_eq_dec ((log s ++ [n]) ++ rests fs) y.
Proof.
  intros [L1 L2] H x y E. specialize (H x y E). revert H. cn. cbn [count_occ]. destruct (note_eq_dec n x) as [->|]; [congruence|]. destruct (note_eq_dec n y) as [->|]; [now apply L2 in E|]. lia.
Qed.
Lemma lone_ret r z : lone (NRet r z).
Proof. split; trivial. intros [| |[]|[]|[]| | |[]|[]| |]; discriminate. Qed.

Lemma no_wait fs s : Lt fs s -> cl s = false -> forall p g, ~ In (Wait p g) fs.
Proof. intros L C p g I. rewrite (i_cl _ _ L) in C. assert (X : existsb is_wait fs = true) by (apply existsb_exists; eexists; split; [exact I|reflexivity]). congruence. Qed.
Lemma shape_none fs f : (forall p g, ~ In (Wait p g) fs) -> is_wait f = false -> forall u p g v, f :: fs = u ++ Wait p g :: v -> False.
Proof.
  intros N W u p g v E. destruct u as [|x u]; cbn in E; injection E as -> E; [discriminate|]. apply (N p g). rewrite E. apply in_app_iff. right. now left.
Qed.

Lemma T_closed fs s z : z <> 0%Z -> Lt fs s -> Lt fs (emit (NRet (nr s) z) (set_nr (S (nr s)) s)).
Proof.
  intros Z []. set (n := NRet (nr s) z). assert (IN : inert s n) by (apply inert_about; auto).
  constructor; trivial; cbn [log emit set_nr nr].
  - intros c. rewrite IN. apply (lok_view s); auto.
  - intros f I. apply (emit_fok s n f IN). auto.
  - apply code_app; [exact Logic.I|auto].
  - apply timely_snoc; trivial. discriminate.
  - intros q b. specialize (i_ans0 q b). change (outs q (emit n (set_nr (S (nr s)) s))) with (outs q s). revert i_ans0. cn. unfold n. cbn [is_ans is_ret0]. destruct (Z.eqb_spec z 0); [contradiction|]. rewrite andb_false_r. lia.
  - intros q. specialize (i_ret0 q). revert i_ret0. cn. unfold n. cbn [is_ret]. destruct (Nat.eqb_spec q (nr s)) as [->|N]; [rewrite Nat.ltb_irrefl, (proj2 (Nat.ltb_lt _ _)) by lia; lia|].
    replace (q <? S (nr s)) with (q <? nr s); [lia|]. destruct (Nat.ltb_spec q (nr s)), (Nat.ltb_spec q (S (nr s))); trivial; lia.
  - apply twin_lone; [apply lone_ret|auto].
Qed.

Definition ask (r : nat) (z : Z) : list note := both (fun b => NConn b r z None).
Lemma cnt_ask b r z q : cnt (is_ans b q) (ask r z) = if q =? r then 1 else 0.
Proof. unfold ask, both, cnt. cbn. destruct b; cbn; destruct (q =? r); reflexivity. Qed.
Lemma twin_both f x y : second (f true) = Some (f false) -> (forall b, second (f false) <> Some b) -> (forall m, second m = Some (f false) -> m = f true) -> (forall m, second m <> Some (f true)) ->
  second x = Some y -> count_occ note_eq_dec (both f) x = count_occ note_eq_dec (both f) y.
Proof.
  intros A B C D E. unfold both. cn. cbn [count_occ].
  destruct (note_eq_dec (f true) x) as [<-|N1].
  - rewrite A in E. injection E as <-. destruct (note_eq_dec (f false) (f true)) as [X|]; [rewrite <- X in A; now apply B in A|]. destruct (note_eq_dec (f true) (f false)) as [X|]; [congruence|]. destruct (note_eq_dec (f false) (f false)); [lia|congruence].
  - destruct (note_eq_dec (f false) x) as [<-|]; [now apply B in E|]. destruct (note_eq_dec (f true) y) as [<-|]; [now apply D in E|]. destruct (note_eq_dec (f false) y) as [<-|]; [|lia]. apply C in E. congruence.
Qed.
Definition paired (l : list note) : Prop := forall x y, second x = Some y -> count_occ note_eq_dec l x = count_occ note_eq_dec l y.
Lemma paired_app l m : paired l -> paired m -> paired (l ++ m).
Proof. intros A B x y E. rewrite !occ_app, (A _ _ E), (B _ _ E). reflexivity. Qed.
Ltac pairs := intros x y E; apply twin_both; trivial; [discriminate|intros [| |[]|[]|[]| | |[]|[]| |]; cbn; congruence|intros [| |[]|[]|[]| | |[]|[]| |]; discriminate].
Lemma paired_conn r z co : paired (both (fun b => NConn b r z co)). Proof. pairs. Qed.
Lemma paired_acc r z co : paired (both (fun b => NAcc b r z co)). Proof. pairs. Qed.
Lemma paired_disc c : paired (both (fun b => NDisc b c)). Proof. pairs. Qed.
Lemma paired_recv c : paired (both (fun b => NRecv b c)). Proof. pairs. Qed.
Lemma paired_writ c : paired (both (fun b => NWrit b c)). Proof. pairs. Qed.
Lemma paired_nil : paired []. Proof. intros x y E. reflexivity. Qed.
Lemma paired_times n l : paired l -> paired (times n l).
Proof. intros P. induction n as [|n IH]; [apply paired_nil|]. cbn. now apply paired_app. Qed.

Lemma T_enter fs s : cl s = false -> Lt fs s -> Lt (Frame (ask (nr s) 1) (JRet (nr s)) :: fs) (set_nr (S (nr s)) s).
Proof.
  intros C H. pose proof (no_wait _ _ H C) as NW. destruct H. constructor; cbn [set_nr log nr cb cl ow lp pend cs hs]; trivial.
  - intros f [<-|I]; [reflexivity|auto].
  - intros u p g v E. now apply shape_none in E.
  - intros g [X|I]; [discriminate|now apply NW in I].
  - intros p g [X|I]; [discriminate|now apply NW in I].
  - intros f [<-|I]; [cbn; right; left; exists 1%Z; now left|auto]. apply i_frm0 in I. exact I.
  - intros n I. change (rests (Frame (ask (nr s) 1) (JRet (nr s)) :: fs)) with (ask (nr s) 1 ++ rests fs) in I. rewrite !in_app_iff in I. destruct I as [I|[I|I]]; [apply i_code0, in_app_iff; auto| |apply i_code0, in_app_iff; auto].
    destruct I as [<-|[<-|[]]]; cbn; split; congruence.
  - intros q b. specialize (i_ans0 q b). change (outs q (set_nr (S (nr s)) s)) with (outs q s). change (rests (Frame (ask (nr s) 1) (JRet (nr s)) :: fs)) with (ask (nr s) 1 ++ rests fs). revert i_ans0. unfold jret. cn. rewrite cnt_ask, (Nat.eqb_sym (nr s)). lia.
  - intros q. specialize (i_ret0 q). revert i_ret0. unfold jret. cn. destruct (Nat.eqb_spec (nr s) q) as [<-|N]; [rewrite Nat.ltb_irrefl, (proj2 (Nat.ltb_lt _ _)) by lia; lia|].
    replace (q <? S (nr s)) with (q <? nr s); [lia|]. destruct (Nat.ltb_spec q (nr s)), (Nat.ltb_spec q (S (nr s))); trivial; lia.
  - intros x y E. change (rests (Frame (ask (nr s) 1) (JRet (nr s)) :: fs)) with (ask (nr s) 1 ++ rests fs). specialize (i_twin0 x y E). revert i_twin0. cn. pose proof (paired_conn (nr s) 1 None x y E). unfold ask. lia.
Qed.

Lemma shape_tail f fs : (forall u p g v, f :: fs = u ++ Wait p g :: v -> (forall x, In x v -> is_jret x = true) /\ (u = [] \/ exists x, u = [x] /\ is_uv x = true)) ->
  forall u p g v, fs = u ++ Wait p g :: v -> (forall x, In x v -> is_jret x = true) /\ (u = [] \/ exists x, u = [x] /\ is_uv x = true).
Proof.
  intros H u p g v ->. destruct (H (f :: u) p g v eq_refl) as [X [Y|(x & Y & _)]]; [discriminate|]. injection Y as _ ->. split; trivial. now left.
Qed.
Lemma shape_swap f f' fs : is_wait f = false -> is_wait f' = false -> (is_uv f = true -> is_uv f' = true) -> (forall u p g v, f :: fs = u ++ Wait p g :: v -> (forall x, In x v -> is_jret x = true) /\ (u = [] \/ exists x, u = [x] /\ is_uv x = true)) ->
  forall u p g v, f' :: fs = u ++ Wait p g :: v -> (forall x, In x v -> is_jret x = true) /\ (u = [] \/ exists x, u = [x] /\ is_uv x = true).
Proof.
  intros W W' U H u p g v E. destruct u as [|x u]; cbn in E; injection E as -> E; [discriminate|]. subst fs. destruct (H (f :: u) p g v eq_refl) as [X [Y|(y & Y & Z)]]; [discriminate|]. injection Y as <- ->. split; trivial. right. exists x. auto.
Qed.

Lemma T_refuse fs s r z0 z : z <> 0%Z -> Lt (Frame (ask r z0) (JRet r) :: fs) s -> Lt fs (emit (NRet r z) s).
Proof.
  intros Z []. assert (IN : inert s (NRet r z)) by (apply inert_about; auto).
  constructor; trivial; cbn [log emit nr].
  - intros f I. apply i_g0. now right.
  - now apply (shape_tail _ _ i_shape0).
  - intros g I. apply (i_req0 g). now right.
  - intros p g I. apply (i_ow0 p g). now right.
  - now apply emit_lok.
  - intros f I. apply emit_fok; trivial. apply i_frm0. now right.
  - apply code_app; [exact Logic.I|]. intros m I. apply i_code0. change (rests (_ :: fs)) with (ask r z0 ++ rests fs). rewrite !in_app_iff in *. tauto.
  - apply timely_snoc; trivial. discriminate.
  - intros q b. specialize (i_ans0 q b). change (rests (_ :: fs)) with (ask r z0 ++ rests fs) in i_ans0. change (outs q (emit (NRet r z) s)) with (outs q s). revert i_ans0. unfold jret. cn. rewrite cnt_ask. cbn [is_ans is_ret0]. destruct (Z.eqb_spec z 0); [contradiction|]. rewrite andb_false_r, (Nat.eqb_sym r q). lia.
  - intros q. specialize (i_ret0 q). revert i_ret0. unfold jret. cn. cbn [is_ret]. rewrite (Nat.eqb_sym r q). lia.
  - intros x y E. specialize (i_twin0 x y E). change (rests (_ :: fs)) with (ask r z0 ++ rests fs) in i_twin0. pose proof (paired_conn r z0 None x y E) as X. fold (ask r z0) in X. assert (Y : count_occ note_eq_dec (log s ++ rests fs) x = count_occ note_eq_dec (log s ++ rests fs) y) by (revert i_twin0; cn; lia).
    pose proof (lone_ret r z) as [L1 L2]. revert Y. cn. cbn [count_occ]. destruct (note_eq_dec (NRet r z) x) as [<-|]; [discriminate|]. destruct (note_eq_dec (NRet r z) y) as [<-|]; [now apply L2 in E|]. lia.
Qed.

Lemma T_ret fs s r : Lt (Frame [] (JRet r) :: fs) s -> Lt fs (emit (NRet r 0%Z) s).
Proof.
  intros []. assert (IN : inert s (NRet r 0%Z)) by (apply inert_about; auto).
  constructor; trivial; cbn [log emit nr].
  - intros f I. apply i_g0. now right.
  - now apply (shape_tail _ _ i_shape0).
  - intros g I. apply (i_req0 g). now right.
  - intros p g I. apply (i_ow0 p g). now right.
  - now apply emit_lok.
  - intros f I. apply emit_fok; trivial. apply i_frm0. now right.
  - apply code_app; [exact Logic.I|]. exact i_code0.
  - apply timely_snoc; trivial. discriminate.
  - intros q b. specialize (i_ans0 q b). change (rests (_ :: fs)) with (rests fs) in i_ans0. change (outs q (emit (NRet r 0%Z) s)) with (outs q s). revert i_ans0. unfold jret. cn. cbn [is_ans is_ret0]. rewrite (Nat.eqb_sym r q). change (0 =? 0)%Z with true. rewrite andb_true_r. lia.
  - intros q. specialize (i_ret0 q). revert i_ret0. unfold jret. cn. cbn [is_ret]. rewrite (Nat.eqb_sym r q). lia.
  - apply twin_lone; [apply lone_ret|]. exact i_twin0.
Qed.

(** Continuations of no connection being closed. *)
Definition plain (k : kont) : bool := match k with JGone _ _ _ | JErase _ _ _ => false | _ => true end.
Lemma fok_nil s k : plain k = true -> fok s (Frame [] k).
Proof. destruct k; cbn; intros; try discriminate; try contradiction; auto. Qed.

(** The request is handed to libuv. *)
Lemma T_accept fs s k p a r z : p = PConn a \/ p = PDns a -> a_req (az s a) = r -> lp s = true -> plain k = true -> Lt (Frame (ask r z) k :: fs) s -> Lt (Frame [] k :: fs) (req_start p s).
Proof.
  intros Ep Er Lp Pk []. constructor; trivial; cbn [log req_start set_pend nr cs hs].
  - revert i_uv0. cn. exact (fun H => H).
  - intros f [<-|I]; [apply (i_g0 (Frame (ask r z) k)); now left|apply i_g0; now right].
  - revert i_shape0. now apply shape_swap.
  - intros g [X|I]; [discriminate|]. apply (i_req0 g). now right.
  - intros q g [X|I]; [discriminate|]. apply (i_ow0 q g). now right.
  - cbn. congruence.
  - intros f [<-|I]; [now apply fok_nil|]. apply (i_frm0 f). now right.
  - intros m I. apply i_code0. change (rests (Frame (ask r z) k :: fs)) with (ask r z ++ rests fs). change (rests (Frame [] k :: fs)) with (rests fs) in I. rewrite !in_app_iff in *. tauto.
  - intros q b. specialize (i_ans0 q b). change (rests (Frame (ask r z) k :: fs)) with (ask r z ++ rests fs) in i_ans0. change (rests (Frame [] k :: fs)) with (rests fs).
    assert (EO : outs q (req_start p s) = (if q =? r then 1 else 0) + outs q s) by (unfold outs, req_start; cbn [pend set_pend az]; cn; rewrite (Nat.eqb_sym q r), <- Er; destruct Ep as [-> | ->]; lia).
    rewrite EO. revert i_ans0. unfold jret. cn. rewrite cnt_ask. lia.
  - intros q. specialize (i_ret0 q). revert i_ret0. unfold jret. cn. exact (fun H => H).
  - intros x y E. specialize (i_twin0 x y E). change (rests (Frame (ask r z) k :: fs)) with (ask r z ++ rests fs) in i_twin0. change (rests (Frame [] k :: fs)) with (rests fs). pose proof (paired_conn r z None x y E) as X. fold (ask r z) in X. revert i_twin0. cn. lia.
Qed.

(** * A new connection *)
Definition tell (acc : bool) (l : nat) (b : bool) (z : Z) (co : option nat) : note := if acc then NAcc b l z co else NConn b l z co.
Definition uvk (k : kont) : bool := match k with JRet _ => false | _ => true end.
Lemma is_uv_k l k : is_uv (Frame l k) = uvk k.
Proof. destruct k; reflexivity. Qed.
Definition jr (r : nat) (k : kont) : nat := match k with JRet r' => if r' =? r then 1 else 0 | _ => 0 end.
Lemma jret_cons r l k fs : jret r (Frame l k :: fs) = jr r k + jret r fs.
Proof. unfold jret. cn. destruct k; reflexivity. Qed.
Lemma uv_cons l k fs : cnt is_uv (Frame l k :: fs) = (if uvk k then 1 else 0) + cnt is_uv fs.
Proof. cn. now rewrite is_uv_k. Qed.
Lemma rests_cons l k fs : rests (Frame l k :: fs) = l ++ rests fs.
Proof. reflexivity. Qed.
Lemma paired_tell acc l z co : paired (both (fun b => tell acc l b z co)).
Proof. destruct acc; [apply paired_acc|apply paired_conn]. Qed.
Lemma fok_uv s l k : uvk k = true -> plain k = true -> fok s (Frame l k) <-> (forall n, In n l -> owed s n).
Proof. destruct k; cbn; intros; try discriminate; reflexivity. Qed.
Lemma full_live K s c : Full K s -> k_live (cs s c) = true -> c < nc s.
Proof. intros [C _ _] L. now apply (l_c _ _ _ _ _ C c). Qed.

(** Frames whose function goes on with [k'] instead of [k]. *)
Definition like (k k' : kont) : Prop := k = k' /\ plain k = true \/ uvk k = true /\ uvk k' = true /\ kflag k' = kflag k /\ plain k = true /\ plain k' = true.
Lemma like_plain k k' : like k k' -> plain k' = true /\ plain k = true /\ uvk k' = uvk k /\ kflag k' = kflag k /\ forall r, jr r k' = jr r k.
Proof. intros [[-> P]|(A & B & C & D & E)]; [auto|]. repeat split; trivial; [congruence|]. intros r. destruct k, k'; try discriminate; reflexivity. Qed.

Lemma T_birth K fs s acc l z k k' h f lis : Full K s -> cl s = false -> like k k' -> (forall r, k = JRet r -> acc = false /\ l = r) ->
  Lt (Frame (both (fun b => tell acc l b z None)) k :: fs) s ->
  Lt (Frame [tell acc l false 0 (Some (nc s))] k' :: fs) (emit (tell acc l true 0 (Some (nc s))) (fst (make_conn h f lis s))).
Proof.
  intros HF C Lk JR H. pose proof (no_wait _ _ H C) as NW. destruct (like_plain _ _ Lk) as (P' & P & U & G & J). destruct H.
  set (c := nc s) in *. set (n := tell acc l true 0 (Some c)). set (s' := emit n _).
  assert (Cc : k_live (cs s' c) = true /\ k_st (cs s' c) = Connected) by (unfold s'; cbn; unfold upd; fold c; rewrite Nat.eqb_refl; auto).
  assert (Cd : forall d, d <> c -> cs s' d = cs s d) by (intros d N; unfold s'; cbn; now apply upd_other).
  assert (Nc : nc s' = S c) by reflexivity.
  assert (AN : forall d, alive s d -> d <> c) by (intros d [D _] ->; apply (full_live _ _ _ HF) in D; unfold c in D; lia).
  assert (AL : forall d, alive s d -> alive s' d) by (intros d D; unfold alive; rewrite Cd by (now apply AN); exact D).
  assert (Al : acc = true -> alive s l).
  { intros ->. assert (X : fok s (Frame (both (fun b => tell true l b z None)) k)) by (apply i_frm0; now left). destruct (uvk k) eqn:Uk; [apply (fok_uv s _ _ Uk P) with (n := tell true l true z None) in X; [exact X|now left]|].
    destruct k; try discriminate. destruct (JR r eq_refl); discriminate. }
  assert (Lc : lives c (log s) = Some Unborn) by (specialize (i_life0 c); unfold lok in i_life0; fold c in i_life0; now rewrite Nat.ltb_irrefl in i_life0).
  assert (Hn : (acc = true -> l <> c)) by (intros A; apply AN; auto).
  assert (Ln : lives c (log s') = Some (Alive None)).
  { change (log s') with (log s ++ [n]). rewrite lives_snoc, Lc. unfold n, tell. destruct acc; cbn; rewrite ?Nat.eqb_refl; trivial. destruct (Nat.eqb_spec l c); [now apply Hn in e|reflexivity]. }
  assert (Ld : forall d, d <> c -> lives d (log s') = lives d (log s)).
  { intros d N. change (log s') with (log s ++ [n]). destruct (about d n) eqn:B; [|apply (lives_about s); auto]. unfold n, tell in B |- *. destruct acc; cbn in B.
    - destruct (Nat.eqb_spec c d); [congruence|]. rewrite orb_false_r in B. rewrite lives_snoc. cbn. rewrite B. apply Nat.eqb_eq in B as ->. destruct (alive_life s d) as (a & ->); auto. destruct (Al eq_refl) as [X _]. now apply (full_live _ _ _ HF).
    - destruct (Nat.eqb_spec c d); congruence. }
  assert (HW : forall p g, ~ In (Wait p g) (Frame [tell acc l false 0 (Some c)] k' :: fs)) by (intros p g [X|X]; [discriminate|apply (NW p g); now right]).
  constructor; trivial.
  - rewrite uv_cons in *. now rewrite U.
  - intros x [<-|I]; [cbn [gflag]; rewrite G; apply (i_g0 _ (or_introl eq_refl))|apply i_g0; now right].
  - change (cb s') with (cb s). rewrite i_cb0. cbn [existsb]. now rewrite !is_uv_k, U.
  - intros u p g v E. exfalso. apply (HW p g). rewrite E. apply in_app_iff. right. now left.
  - intros g I. now apply HW in I.
  - intros p g I. now apply HW in I.
  - change (lp s') with (lp s). change (ow s') with (ow s). intros x Hx.
    assert (E : hold (hs s' x) = hold (hs s x) /\ h_own (hs s' x) = h_own (hs s x)) by (unfold s'; cbn; unfold upd; destruct (Nat.eqb_spec x h) as [->|]; split; reflexivity).
    destruct E as [E1 E2]. rewrite E2. apply i_own0. congruence.
  - change (cl s') with (cl s). congruence.
  - intros d. destruct (Nat.eq_dec d c) as [->|N].
    + rewrite Ln. unfold lok. destruct Cc as [-> ->]. rewrite Nc, (proj2 (Nat.ltb_lt _ _)) by lia. reflexivity.
    + rewrite Ld by trivial. specialize (i_life0 d). unfold lok in *. rewrite Cd, Nc by trivial. fold c in i_life0. replace (d <? S c) with (d <? c); trivial. destruct (Nat.ltb_spec d c), (Nat.ltb_spec d (S c)); trivial; lia.
  - intros x [<-|I].
    + destruct (uvk k') eqn:U'.
      * apply fok_uv; trivial. intros m [<-|[]]. assert (alive s' c) by (unfold alive; destruct Cc as [-> ->]; split; congruence). unfold tell. destruct acc; cbn; auto.
      * assert (k = k') as -> by (destruct Lk as [[X _]|(_ & X & _)]; congruence). destruct k' as [r| | | | | | | | |]; try discriminate. destruct (JR r eq_refl) as [-> ->]. right. right. exists c. split; [lia|reflexivity].
    + assert (X : fok s x) by (apply i_frm0; now right). revert X. apply fok_mono; trivial; [lia|]. intros m d v g Ex.
      assert (N : d <> c) by (intros ->; assert (X : fok s x) by (apply i_frm0; now right); destruct Ex as [-> | ->]; cbn in X; rewrite Lc in X; [destruct X as [[_ X]|[_ X]]|destruct X as [_ X]]; discriminate).
      rewrite Ld, Cd by trivial. auto.
  - intros m I. change (log s') with (log s ++ [n]) in I. rewrite rests_cons, !in_app_iff in I.
    assert (X : In m (log s ++ rests fs) \/ m = n \/ m = tell acc l false 0 (Some c)) by (rewrite in_app_iff; cbn in I; intuition auto).
    destruct X as [X|[-> | ->]]; [apply i_code0; rewrite rests_cons; rewrite !in_app_iff in *; tauto| |]; unfold n, tell; destruct acc; cbn; split; congruence.
  - change (log s') with (log s ++ [n]). apply timely_snoc; trivial. unfold n, tell. destruct acc; discriminate.
  - intros q b. specialize (i_ans0 q b). rewrite rests_cons in *. rewrite jret_cons in *. rewrite J. change (log s') with (log s ++ [n]). change (outs q s') with (outs q s). revert i_ans0. unfold both. cn.
    assert (X : forall b', is_ans b q (tell acc l b' 0 (Some c)) = is_ans b q (tell acc l b' z None)) by (intros; unfold tell; destruct acc; reflexivity).
    assert (Y : is_ret0 q n = false) by (unfold n, tell; destruct acc; reflexivity). unfold n in *. rewrite !X, Y. lia.
  - intros q. specialize (i_ret0 q). rewrite jret_cons in *. rewrite J. change (log s') with (log s ++ [n]). change (nr s') with (nr s). revert i_ret0. cn. assert (Y : is_ret q n = false) by (unfold n, tell; destruct acc; reflexivity). rewrite Y. lia.
  - intros x y E. specialize (i_twin0 x y E). rewrite rests_cons in *. change (log s') with (log s ++ [n]).
    pose proof (paired_tell acc l z None x y E) as X. pose proof (paired_tell acc l 0 (Some c) x y E) as Y. unfold both in Y. revert i_twin0 Y. unfold n. cn. cbn [count_occ]. lia.
Qed.

(** * Entering a callback of libuv *)
Lemma drop_cnt (f : pnd -> bool) p l : In p l -> cnt f l = (if f p then 1 else 0) + cnt f (drop p l).
Proof. induction l as [|q l IH]; intros I; [destruct I|]. cbn [drop]. destruct (pnd_eqb_spec p q) as [->|N]; cn; trivial. destruct I as [->|I]; [congruence|]. rewrite (IH I). lia. Qed.
Lemma no_uv fs : existsb is_uv fs = false -> cnt is_uv fs = 0.
Proof. apply cnt_none. Qed.
Lemma shape_push f fs s : Lt fs s -> existsb is_uv fs = false -> is_uv f = true -> is_wait f = false ->
  forall u p g v, f :: fs = u ++ Wait p g :: v -> (forall x, In x v -> is_jret x = true) /\ (u = [] \/ exists x, u = [x] /\ is_uv x = true).
Proof.
  intros L N U W u p g v E. destruct u as [|x u]; cbn in E; injection E as -> E; [discriminate|]. destruct (i_shape _ _ L u p g v E) as [X [->|(y & -> & Y)]]; split; trivial; right; [now exists x|].
  exfalso. rewrite E in N. cbn in N. now rewrite Y in N.
Qed.

Lemma T_push fs s l k : existsb is_uv fs = false -> uvk k = true -> plain k = true -> kflag k = true -> (forall n, In n l -> owed s n) -> (forall n, In n l -> code_ok n) -> (forall b r, cnt (is_ans b r) l = 0) -> paired l ->
  Lt fs s -> Lt (Frame l k :: fs) (set_cb true s).
Proof.
  intros NU U P G W Cd An Pr H. pose proof (shape_push (Frame l k) fs s H NU) as SH. destruct H. constructor; cbn [set_cb log nr cb cl ow lp pend cs hs]; trivial.
  - rewrite uv_cons, U, no_uv by trivial. lia.
  - intros f [<-|I]; [exact G|auto].
  - cbn [existsb]. now rewrite is_uv_k, U.
  - now apply SH.
  - intros g [X|I]; [discriminate|]. now apply (i_req0 g).
  - intros p g [X|I]; [discriminate|]. now apply (i_ow0 p g).
  - intros f [<-|I]; [now apply fok_uv|]. now apply i_frm0 in I.
  - intros n I. rewrite rests_cons, !in_app_iff in I. destruct I as [I|[I|I]]; auto; apply i_code0, in_app_iff; auto.
  - intros r b. specialize (i_ans0 r b). rewrite rests_cons, jret_cons. change (outs r (set_cb true s)) with (outs r s). revert i_ans0. cn. rewrite An. destruct k; cbn [jr]; try discriminate; lia.
  - intros r. rewrite jret_cons, <- i_ret0. destruct k; try discriminate; cbn [jr]; lia.
  - intros x y E. specialize (i_twin0 x y E). rewrite rests_cons. revert i_twin0. cn. rewrite (Pr x y E). lia.
Qed.

Lemma T_fire fs s p a k z n : existsb is_uv fs = false -> uvk k = true -> plain k = true -> kflag k = true -> p = PConn a \/ p = PDns a -> In p (pend s) -> z <> 0%Z ->
  Lt fs s -> Lt (Frame (ask (a_req (az s a)) z) k :: fs) (set_cb true (set_pend (drop p (pend s)) n s)).
Proof.
  intros NU U P G Ep Ip Z H. pose proof (shape_push (Frame (ask (a_req (az s a)) z) k) fs s H NU) as SH. destruct H. constructor; cbn [set_cb set_pend log nr cb cl ow lp pend cs hs]; trivial.
  - rewrite uv_cons, U, no_uv by trivial. lia.
  - intros f [<-|I]; [exact G|auto].
  - cbn [existsb]. now rewrite is_uv_k, U.
  - now apply SH.
  - intros g [X|I]; [discriminate|]. now apply (i_req0 g).
  - intros q g [X|I]; [discriminate|]. now apply (i_ow0 q g).
  - intros X. rewrite (i_lp0 X) in Ip. destruct Ip.
  - intros f [<-|I]; [|now apply i_frm0 in I]. apply fok_uv; trivial. intros m [<-|[<-|[]]]; exact Logic.I.
  - intros m I. rewrite rests_cons, !in_app_iff in I. destruct I as [I|[I|I]]; [apply i_code0, in_app_iff; auto| |apply i_code0, in_app_iff; auto]. destruct I as [<-|[<-|[]]]; cbn; split; congruence.
  - intros r b. specialize (i_ans0 r b). rewrite rests_cons, jret_cons. unfold outs in *. cbn [pend az set_cb set_pend]. revert i_ans0. rewrite (drop_cnt _ p (pend s)) by trivial. cn. rewrite cnt_ask, (Nat.eqb_sym r). destruct Ep as [-> | ->]; destruct k; cbn [jr]; try discriminate; lia.
  - intros r. rewrite jret_cons, <- i_ret0. destruct k; try discriminate; cbn [jr]; lia.
  - intros x y E. specialize (i_twin0 x y E). rewrite rests_cons. revert i_twin0. cn. pose proof (paired_conn (a_req (az s a)) z None x y E) as X. unfold ask. lia.
Qed.

Lemma drop_notin p l : ~ In p l -> drop p l = l.
Proof. induction l as [|q l IH]; trivial. intros I. cbn [drop]. destruct (pnd_eqb_spec p q) as [->|N]; [destruct I; now left|]. f_equal. apply IH. intros X. apply I. now right. Qed.
Lemma T_dropw fs s c n : Lt fs s -> Lt fs (set_pend (drop (PWrite c) (pend s)) n s).
Proof.
  intros []. constructor; trivial; cbn [set_pend log nr cb cl ow lp pend cs hs]; trivial.
  - intros X. now rewrite (i_lp0 X).
  - intros r b. rewrite <- (i_ans0 r b). unfold outs. cbn [pend az set_pend]. f_equal. symmetry. destruct (in_dec (fun p q => match pnd_eqb_spec p q with ReflectT _ e => left e | ReflectF _ e => right e end) (PWrite c) (pend s)) as [I|I]; [now rewrite (drop_cnt _ _ _ I)|].
    now rewrite drop_notin.
Qed.

(** * Callbacks and returns *)
Lemma T_emit fs s n l k : inert s n -> (fok s (Frame (n :: l) k) -> fok (emit n s) (Frame l k)) -> (forall r z c, n = NConn false r z (Some c) -> cnt (is_ret r) (log s) = 0 \/ exists a, lives c (log s) = Some (Alive a)) ->
  (forall r, is_ret r n = false) -> Lt (Frame (n :: l) k :: fs) s -> Lt (Frame l k :: fs) (emit n s).
Proof.
  intros IN FO TM NR []. constructor; trivial; cbn [log emit nr].
  - rewrite uv_cons in *. trivial.
  - intros f [<-|I]; [exact (i_g0 _ (or_introl eq_refl))|apply i_g0; now right].
  - revert i_shape0. now apply shape_swap.
  - intros g [X|I]; [discriminate|]. apply (i_req0 g). now right.
  - intros p g [X|I]; [discriminate|]. apply (i_ow0 p g). now right.
  - now apply emit_lok.
  - intros f [<-|I]; [apply FO, i_frm0; now left|apply emit_fok; trivial; apply i_frm0; now right].
  - intros m I. apply i_code0. rewrite rests_cons, !in_app_iff in *. cbn in *. tauto.
  - now apply timely_snoc.
  - intros r b. specialize (i_ans0 r b). rewrite rests_cons, jret_cons in *. change (outs r (emit n s)) with (outs r s). revert i_ans0. assert (X : is_ret0 r n = false) by (specialize (NR r); destruct n; cbn in *; rewrite ?NR; trivial). cn. rewrite X. lia.
  - intros r. specialize (i_ret0 r). rewrite jret_cons in *. revert i_ret0. cn. rewrite NR. lia.
  - intros x y E. specialize (i_twin0 x y E). rewrite rests_cons in *. revert i_twin0. cn. cbn [count_occ]. lia.
Qed.
Lemma T_next K fs s n l k : Full K s -> uvk k = true -> plain k = true -> Lt (Frame (n :: l) k :: fs) s -> Lt (Frame l k :: fs) (emit n s).
Proof.
  intros F U P H. assert (X : fok s (Frame (n :: l) k)) by (apply (i_frm _ _ H); now left). rewrite fok_uv in X by trivial.
  assert (W : owed s n) by (apply X; now left). assert (IN : inert s n) by (apply (inert_owed K); trivial; apply (i_life _ _ H)).
  apply T_emit; trivial.
  - intros _. apply fok_uv; trivial. intros m I. apply (owed_mono s); auto. apply X. now right.
  - intros r z c ->. right. cbn in W. destruct W as [_ W]. apply (alive_life s); auto; [apply (i_life _ _ H)|]. apply (full_live _ _ _ F), W.
  - intros r. destruct n; trivial. destruct W.
Qed.
Lemma T_next_ret fs s r z c : Lt (Frame [NConn false r z (Some c)] (JRet r) :: fs) s -> Lt (Frame [] (JRet r) :: fs) (emit (NConn false r z (Some c)) s).
Proof.
  intros H. assert (X : fok s (Frame [NConn false r z (Some c)] (JRet r))) by (apply (i_frm _ _ H); now left).
  assert (N : c < nc s) by (destruct X as [X|[(y & [X|X])|(d & X1 & X2)]]; [discriminate|discriminate|discriminate|congruence]).
  apply T_emit; trivial; [apply inert_late; trivial; apply (i_life _ _ H)|now left|].
  intros q y d E. injection E as <- <- <-. left. pose proof (i_ret _ _ H r) as R. rewrite jret_cons in R. cbn [jr] in R. rewrite Nat.eqb_refl in R. destruct (r <? nr s); lia.
Qed.

Lemma T_next_none fs s n l r z : n :: l = both (fun b => NConn b r z None) \/ n :: l = [NConn false r z None] -> Lt (Frame (n :: l) (JRet r) :: fs) s -> Lt (Frame l (JRet r) :: fs) (emit n s).
Proof.
  intros E H. assert (Ln : exists b, n = NConn b r z None) by (destruct E as [E|E]; [exists true|exists false]; unfold both in E; congruence). destruct Ln as (b & ->).
  apply T_emit; trivial; [apply inert_about; [apply (i_life _ _ H)|reflexivity]| |discriminate].
  intros _. destruct E as [E|E]; [unfold both in E; injection E as _ ->; right; left; exists z; now right|injection E as _ ->; now left].
Qed.

Lemma no_uv_tail l k fs s : uvk k = true -> Lt (Frame l k :: fs) s -> existsb is_uv fs = false.
Proof.
  intros U H. pose proof (i_uv _ _ H) as X. rewrite uv_cons, U in X. destruct (existsb is_uv fs) eqn:E; trivial. apply existsb_exists in E. destruct E as (f & I & Uf).
  assert (0 < cnt is_uv fs); [|lia]. unfold cnt. assert (In f (filter is_uv fs)) by (now apply filter_In). destruct (filter is_uv fs); [destruct H0|cbn; lia].
Qed.
Lemma T_pop fs s k : uvk k = true -> Lt (Frame [] k :: fs) s -> Lt fs (unguard (kflag k) s).
Proof.
  intros U H. pose proof (no_uv_tail _ _ _ _ U H) as NU. assert (G : kflag k = true) by (apply (i_g _ _ H (Frame [] k)); now left). rewrite G. cbn [unguard]. destruct H.
  constructor; cbn [set_cb log nr cb cl ow lp pend cs hs]; trivial.
  - rewrite uv_cons in i_uv0. lia.
  - intros f I. apply i_g0. now right.
  - auto.
  - now apply (shape_tail _ _ i_shape0).
  - intros g I. apply (i_req0 g). now right.
  - intros p g I. apply (i_ow0 p g). now right.
  - intros f I. apply (i_frm0 f). now right.
  - intros r b. specialize (i_ans0 r b). rewrite jret_cons in i_ans0. change (outs r (set_cb false s)) with (outs r s). destruct k; try discriminate; exact i_ans0.
  - intros r. specialize (i_ret0 r). rewrite jret_cons in i_ret0. destruct k; try discriminate; exact i_ret0.
Qed.
Lemma T_like fs s l k k' : like k k' -> (l = [] \/ uvk k = true) -> Lt (Frame l k :: fs) s -> Lt (Frame l k' :: fs) s.
Proof.
  intros Lk E H. destruct (like_plain _ _ Lk) as (P' & P & U & G & J). destruct H. constructor; trivial.
  - rewrite uv_cons in *. now rewrite U.
  - intros f [<-|I]; [cbn [gflag]; rewrite G; exact (i_g0 _ (or_introl eq_refl))|apply i_g0; now right].
  - rewrite i_cb0. cbn [existsb]. now rewrite !is_uv_k, U.
  - revert i_shape0. apply shape_swap; trivial. rewrite !is_uv_k. congruence.
  - intros g [X|I]; [discriminate|]. apply (i_req0 g). now right.
  - intros p g [X|I]; [discriminate|]. apply (i_ow0 p g). now right.
  - intros f [<-|I]; [|apply i_frm0; now right]. destruct E as [->|E]; [now apply fok_nil|]. apply fok_uv; [congruence|trivial|]. apply (fok_uv s l k E P). apply i_frm0. now left.
  - intros r b. rewrite jret_cons, J, <- jret_cons with (l := l). apply i_ans0.
  - intros r. rewrite jret_cons, J, <- jret_cons with (l := l). apply i_ret0.
Qed.

(** * Asking for the end, and writing *)
Lemma step_conn t : step_st t <> Connected.
Proof. destruct t; discriminate. Qed.
Lemma T_ask fs s s' c d : asked s s' c d -> k_live (cs s c) = true -> c < nc s -> Lt fs s -> Lt fs s'.
Proof.
  intros [[q1 q2 q3 q4 q5 q7 q8 q9 q10 q11 q12 q13] A2 A3 A4 A5 A6 A7 A8 A9 A10 A11 A12 A13 A14] L N [].
  assert (Vl : forall e, k_live (cs s' e) = k_live (cs s e)) by (intros e; destruct (Nat.eq_dec e c) as [->|X]; [congruence|now rewrite A3]).
  assert (NR : forall r, is_ret r (NAsk c d) = false) by reflexivity.
  assert (Ld : forall e, e <> c -> lives e (log s') = lives e (log s)) by (intros e X; rewrite A2; apply (lives_about s); auto; cbn; apply Nat.eqb_neq; congruence).
  assert (Lc : lives c (log s') = match lives c (log s) with Some p => live1 c p (NAsk c d) | None => None end) by (rewrite A2; apply lives_snoc).
  cbn [live1] in Lc. rewrite Nat.eqb_refl in Lc.
  assert (AL : forall e, alive s e -> alive s' e).
  { intros e [X Y]. unfold alive. rewrite Vl. split; trivial. destruct (Nat.eq_dec e c) as [->|Z]; [|now rewrite A3]. rewrite A6. destruct (k_st (cs s c)); cbn; congruence. }
  constructor; trivial; rewrite ?q9, ?q10, ?q11, ?q12, ?q7, ?q5; trivial.
  - intros g I e. rewrite Vl. now apply (i_req0 g).
  - intros h H. rewrite A11. apply i_own0. auto.
  - intros C e. rewrite Vl. intros E. destruct (Nat.eq_dec e c) as [->|X]; [rewrite A6; apply step_conn|rewrite A3 by trivial; auto].
  - intros e. destruct (Nat.eq_dec e c) as [->|X].
    + specialize (i_life0 c). unfold lok in *. rewrite q2, Vl. apply Nat.ltb_lt in N. rewrite N, L in *. rewrite A6, A5, Lc. destruct (k_st (cs s c)); cbn [step_st]; [now rewrite i_life0|now rewrite i_life0|]. destruct i_life0 as [-> |[-> | ->]]; auto.
    + rewrite Ld by trivial. apply (lok_view s); auto; now rewrite A3.
  - intros f I. specialize (i_frm0 f I). destruct f as [l k|]; trivial. destruct (plain k) eqn:P.
    + destruct (uvk k) eqn:U; [rewrite fok_uv in * by trivial; intros n J; apply (owed_mono s); auto|]. destruct k; try discriminate. cbn in *. rewrite q2. exact i_frm0.
    + destruct k as [r|a g|a o g|h g|e v g|e v g|e f g|e f g|e g|e g]; try discriminate; cbn [fok] in *; (destruct (Nat.eq_dec e c) as [->|X]; [|now rewrite Ld, ?A3]).
      * rewrite A5, Lc. destruct i_frm0 as [[-> ->]|[-> ->]]; auto.
      * rewrite Lc. destruct i_frm0 as [-> ->]; auto.
  - rewrite A2. now apply code_app.
  - rewrite A2. apply timely_snoc; trivial. discriminate.
  - intros r b. rewrite (outs_ext s) by (trivial; intros; now rewrite q3). specialize (i_ans0 r b). rewrite A2. revert i_ans0. cn. cbn [is_ans is_ret0]. lia.
  - intros r. rewrite <- i_ret0, A2. cn. cbn [is_ret]. lia.
  - rewrite A2. apply twin_lone; trivial. split; trivial. intros [| |[]|[]|[]| | |[]|[]| |]; discriminate.
Qed.

Lemma live_hold K s c : Full K s -> k_live (cs s c) = true -> hold (hs s (k_h (cs s c))) = true.
Proof.
  intros [C _ _] L. unfold hold. destruct (l_c _ _ _ _ _ C c L) as (_ & [I|I]).
  - destruct (p_c _ _ _ _ _ C _ _ I) as (_ & _ & X & _). now rewrite X.
  - destruct (g_c _ _ _ _ _ C _ _ I) as (_ & _ & _ & _ & [[_ X]|[_ [X _]]]); now rewrite X.
Qed.
Lemma live_lp K fs s c : Full K s -> Lt fs s -> k_live (cs s c) = true -> lp s = true.
Proof. intros F L H. apply (i_own _ _ L (k_h (cs s c))). now apply (live_hold K). Qed.

Lemma T_wrote fs s s' c p ln : wrote s s' c p -> (p = [] \/ p = [PWrite c]) -> lp s = true -> log s' = log s ++ ln -> (ln = [] \/ exists z, ln = [NSent c z] /\ inert s (NSent c z)) -> Lt fs s -> Lt fs s'.
Proof.
  intros [w1 w2 w3 w4 w5 w6 w7 w8 w9 w10 w11 w12 w13 w14 w15 w16] Ep Lp El Ln [].
  assert (Vl : forall e, k_live (cs s' e) = k_live (cs s e)) by (intros e; destruct (Nat.eq_dec e c) as [->|X]; [trivial|now rewrite w11]).
  assert (Vs : forall e, k_st (cs s' e) = k_st (cs s e)) by (intros e; destruct (Nat.eq_dec e c) as [->|X]; [trivial|now rewrite w11]).
  assert (Vd : forall e, k_disc (cs s' e) = k_disc (cs s e)) by (intros e; destruct (Nat.eq_dec e c) as [->|X]; [trivial|now rewrite w11]).
  assert (LL : forall e, lives e (log s') = lives e (log s)) by (intros e; rewrite El; destruct Ln as [->|(z & -> & IN)]; [now rewrite app_nil_r|apply IN]).
  assert (EO : forall r, outs r s' = outs r s) by (intros r; unfold outs; rewrite w6, w3; cn; destruct Ep as [-> | ->]; reflexivity).
  constructor; trivial; rewrite ?w7, ?w8, ?w9, ?w10, ?w5; trivial.
  - intros g I e. rewrite Vl. now apply (i_req0 g).
  - intros h H. rewrite w15. apply i_own0. auto.
  - congruence.
  - intros C e. rewrite Vl, Vs. now apply i_cld0.
  - intros e. rewrite LL. apply (lok_view s); auto.
  - intros f I. apply (fok_mono s); [intros e; apply alive_view; auto|lia| |auto]. intros l e v g _. rewrite LL. auto.
  - rewrite El. destruct Ln as [->|(z & -> & IN)]; [now rewrite app_nil_r|now apply code_app].
  - rewrite El. destruct Ln as [->|(z & -> & IN)]; [now rewrite app_nil_r|apply timely_snoc; trivial; discriminate].
  - intros r b. rewrite EO. specialize (i_ans0 r b). rewrite El. destruct Ln as [->|(z & -> & IN)]; [now rewrite app_nil_r|]. revert i_ans0. cn. cbn [is_ans is_ret0]. lia.
  - intros r. rewrite <- i_ret0, El. destruct Ln as [->|(z & -> & IN)]; [now rewrite app_nil_r|]. cn. cbn [is_ret]. lia.
  - rewrite El. destruct Ln as [->|(z & -> & IN)]; [now rewrite app_nil_r|]. apply twin_lone; trivial. split; trivial. intros [| |[]|[]|[]| | |[]|[]| |]; discriminate.
Qed.
Lemma inert_sent s c z : (forall c, lok s c (lives c (log s))) -> k_live (cs s c) = true -> c < nc s -> (z = 0%Z -> k_st (cs s c) = Connected) -> inert s (NSent c z).
Proof.
  intros L V N Z e. destruct (about e (NSent c z)) eqn:B; [|now apply (lives_about s)]. cbn in B. rewrite lives_snoc. cbn [live1]. rewrite B. apply Nat.eqb_eq in B as ->. specialize (L e). unfold lok in L. apply Nat.ltb_lt in N. rewrite N, V in L.
  assert (Fz : k_st (cs s e) <> Connected -> failed z = true) by (intros X; unfold failed; destruct (Z.eqb_spec z 0); [now apply Z in e0|reflexivity]).
  destruct (k_st (cs s e)); [now rewrite L| |]; (rewrite Fz by discriminate); repeat match goal with H : _ \/ _ |- _ => destruct H end; now rewrite ?L, ?H.
Qed.

(** * The end of a connection *)
Lemma not_uv fs f : existsb is_uv fs = false -> In f fs -> is_uv f = false.
Proof. intros E I. destruct (is_uv f) eqn:U; trivial. assert (X : existsb is_uv fs = true) by (apply existsb_exists; eauto). congruence. Qed.
Lemma fok_ret s s' f : is_uv f = false -> nc s <= nc s' -> fok s f -> fok s' f.
Proof. destruct f as [l k|]; trivial. rewrite is_uv_k. intros U. destruct k; try discriminate. cbn. intros N [H|[H|(c & H1 & H2)]]; [now left|right; now left|right; right]. exists c. split; trivial. lia. Qed.

Lemma T_gone fs s c h v : existsb is_uv fs = false -> k_live (cs s c) = true -> k_st (cs s c) = Disconnecting -> c < nc s -> hold (hs s h) = true -> Lt fs s ->
  Lt (Frame [NDisc false c] (JGone c v true) :: fs) (emit (NDisc true c) (set_cb true (on_c c (c_st Disconnected) (on_h h (h_state HClosed) s)))).
Proof.
  intros NU L S N Hh H. pose proof (shape_push (Frame [NDisc false c] (JGone c v true)) fs s H NU) as SH. destruct H. set (s' := emit _ _).
  assert (Cc : cs s' c = c_st Disconnected (cs s c)) by (unfold s'; cbn; apply upd_same).
  assert (Cd : forall d, d <> c -> cs s' d = cs s d) by (intros d X; unfold s'; cbn; now apply upd_other).
  assert (Vl : forall e, k_live (cs s' e) = k_live (cs s e)) by (intros e; destruct (Nat.eq_dec e c) as [->|X]; [now rewrite Cc|now rewrite Cd]).
  assert (Ll : lives c (log s) = Some (Alive (Some (k_disc (cs s c))))) by (specialize (i_life0 c); unfold lok in i_life0; apply Nat.ltb_lt in N; rewrite N, L, S in i_life0; exact i_life0).
  assert (Lc : lives c (log s') = Some (Parting (k_disc (cs s c)))) by (change (log s') with (log s ++ [NDisc true c]); rewrite lives_snoc, Ll; cbn; now rewrite Nat.eqb_refl).
  assert (Ld : forall e, e <> c -> lives e (log s') = lives e (log s)) by (intros e X; apply (lives_about s); auto; cbn; apply Nat.eqb_neq; congruence).
  constructor; trivial.
  - rewrite uv_cons, no_uv by trivial. cbn. lia.
  - intros f [<-|I]; [reflexivity|auto].
  - now apply SH.
  - intros g [X|I]; [discriminate|]. intros d. rewrite Vl. now apply (i_req0 g).
  - intros p g [X|I]; [discriminate|]. now apply (i_ow0 p g).
  - intros x Hx. change (lp s') with (lp s). change (ow s') with (ow s). assert (E : h_own (hs s' x) = h_own (hs s x)) by (unfold s'; cbn; unfold upd; destruct (Nat.eqb_spec x h) as [->|]; reflexivity). rewrite E. apply i_own0.
    destruct (Nat.eq_dec x h) as [->|X]; trivial. rewrite <- Hx. unfold s'. cbn. now rewrite upd_other.
  - intros Cl d. rewrite Vl. intros X. destruct (Nat.eq_dec d c) as [->|Y]; [rewrite Cc; discriminate|rewrite Cd by trivial; auto].
  - intros d. destruct (Nat.eq_dec d c) as [->|Y].
    + unfold lok. change (nc s') with (nc s). rewrite (proj2 (Nat.ltb_lt _ _) N), Vl, L, Cc, Lc. now left.
    + rewrite Ld by trivial. apply (lok_view s); auto; now rewrite Cd.
  - intros f [<-|I]; [left; split; trivial; now rewrite Lc, Cc|]. apply (fok_ret s); [now apply (not_uv fs)|now cbn|auto].
  - intros n I. change (log s') with (log s ++ [NDisc true c]) in I. rewrite rests_cons, !in_app_iff in I. destruct I as [[I|[<-|[]]]|[[<-|[]]|I]]; try exact Logic.I; apply i_code0, in_app_iff; auto.
  - change (log s') with (log s ++ [NDisc true c]). apply timely_snoc; trivial. discriminate.
  - intros r b. specialize (i_ans0 r b). change (log s') with (log s ++ [NDisc true c]). change (outs r s') with (outs r s). rewrite rests_cons, jret_cons. revert i_ans0. cn. cbn [is_ans is_ret0 jr]. lia.
  - intros r. specialize (i_ret0 r). change (log s') with (log s ++ [NDisc true c]). change (nr s') with (nr s). rewrite jret_cons. revert i_ret0. cn. cbn [is_ret jr]. lia.
  - intros x y E. specialize (i_twin0 x y E). change (log s') with (log s ++ [NDisc true c]). rewrite rests_cons. pose proof (paired_disc c x y E) as X. unfold both in X. revert i_twin0 X. cn. cbn [count_occ]. lia.
Qed.

Lemma T_next_gone fs s c v g : k_live (cs s c) = true -> k_st (cs s c) = Disconnected -> c < nc s -> Lt (Frame [NDisc false c] (JGone c v g) :: fs) s -> Lt (Frame [] (JGone c v g) :: fs) (emit (NDisc false c) s).
Proof.
  intros L S N H. assert (NU : existsb is_uv fs = false) by (now apply (no_uv_tail _ _ _ _ (eq_refl : uvk (JGone c v g) = true) H)). destruct H. set (s' := emit _ _).
  assert (Ll : lives c (log s) = Some (Parting (k_disc (cs s c)))) by (destruct (i_frm0 _ (or_introl eq_refl)) as [[_ X]|[X _]]; [exact X|discriminate]).
  assert (Lc : lives c (log s') = Some (Parted (k_disc (cs s c)))) by (change (log s') with (log s ++ [NDisc false c]); rewrite lives_snoc, Ll; cbn; now rewrite Nat.eqb_refl).
  assert (Ld : forall e, e <> c -> lives e (log s') = lives e (log s)) by (intros e X; apply (lives_about s); auto; cbn; apply Nat.eqb_neq; congruence).
  constructor; trivial.
  - intros f [<-|I]; [exact (i_g0 _ (or_introl eq_refl))|apply i_g0; now right].
  - revert i_shape0. now apply shape_swap.
  - intros q [X|I]; [discriminate|]. apply (i_req0 q). now right.
  - intros p q [X|I]; [discriminate|]. apply (i_ow0 p q). now right.
  - intros d. destruct (Nat.eq_dec d c) as [->|Y].
    + unfold lok. change (nc s') with (nc s). change (cs s') with (cs s). rewrite (proj2 (Nat.ltb_lt _ _) N), L, S, Lc. auto.
    + rewrite Ld by trivial. apply (lok_view s); auto.
  - intros f [<-|I]; [right; split; trivial|]. apply (fok_ret s); [now apply (not_uv fs)|now cbn|apply i_frm0; now right].
  - intros n I. apply i_code0. change (log s') with (log s ++ [NDisc false c]) in I. rewrite rests_cons, !in_app_iff in *. cbn in *. tauto.
  - change (log s') with (log s ++ [NDisc false c]). apply timely_snoc; trivial. discriminate.
  - intros r b. specialize (i_ans0 r b). change (log s') with (log s ++ [NDisc false c]). change (outs r s') with (outs r s). rewrite rests_cons, jret_cons in *. revert i_ans0. cn. cbn [is_ans is_ret0 jr]. lia.
  - intros r. specialize (i_ret0 r). change (log s') with (log s ++ [NDisc false c]). change (nr s') with (nr s). rewrite jret_cons in *. revert i_ret0. cn. cbn [is_ret jr]. lia.
  - intros x y E. specialize (i_twin0 x y E). change (log s') with (log s ++ [NDisc false c]). rewrite rests_cons in *. revert i_twin0. cn. cbn [count_occ]. lia.
Qed.

Lemma T_cb fs s c v g d : k_live (cs s c) = true -> k_st (cs s c) = Disconnected -> c < nc s -> k_disc (cs s c) = Some d -> Lt (Frame [] (JGone c v g) :: fs) s -> Lt (Frame [] (JErase c v g) :: fs) (emit (NCb c d) s).
Proof.
  intros L S N D H. assert (NU : existsb is_uv fs = false) by (now apply (no_uv_tail _ _ _ _ (eq_refl : uvk (JGone c v g) = true) H)). destruct H. set (s' := emit _ _).
  assert (Ll : lives c (log s) = Some (Parted (Some d))) by (destruct (i_frm0 _ (or_introl eq_refl)) as [[X _]|[_ X]]; [discriminate|rewrite <- D; exact X]).
  assert (Lc : lives c (log s') = Some Called) by (change (log s') with (log s ++ [NCb c d]); rewrite lives_snoc, Ll; cbn; now rewrite Nat.eqb_refl, N.eqb_refl).
  assert (Ld : forall e, e <> c -> lives e (log s') = lives e (log s)) by (intros e X; apply (lives_about s); auto; cbn; apply Nat.eqb_neq; congruence).
  constructor; trivial.
  - intros f [<-|I]; [exact (i_g0 _ (or_introl eq_refl))|apply i_g0; now right].
  - revert i_shape0. now apply shape_swap.
  - intros q [X|I]; [discriminate|]. apply (i_req0 q). now right.
  - intros p q [X|I]; [discriminate|]. apply (i_ow0 p q). now right.
  - intros e. destruct (Nat.eq_dec e c) as [->|Y].
    + unfold lok. change (nc s') with (nc s). change (cs s') with (cs s). rewrite (proj2 (Nat.ltb_lt _ _) N), L, S, Lc. auto.
    + rewrite Ld by trivial. apply (lok_view s); auto.
  - intros f [<-|I]; [split; trivial|]. apply (fok_ret s); [now apply (not_uv fs)|now cbn|apply i_frm0; now right].
  - intros n I. change (log s') with (log s ++ [NCb c d]) in I. rewrite rests_cons, !in_app_iff in I. destruct I as [[I|[<-|[]]]|[[]|I]]; try exact Logic.I; apply i_code0; rewrite rests_cons, !in_app_iff; auto.
  - change (log s') with (log s ++ [NCb c d]). apply timely_snoc; trivial. discriminate.
  - intros r b. specialize (i_ans0 r b). change (log s') with (log s ++ [NCb c d]). change (outs r s') with (outs r s). rewrite rests_cons, jret_cons in *. revert i_ans0. cn. cbn [is_ans is_ret0 jr]. lia.
  - intros r. specialize (i_ret0 r). change (log s') with (log s ++ [NCb c d]). change (nr s') with (nr s). rewrite jret_cons in *. revert i_ret0. cn. cbn [is_ret jr]. lia.
  - change (log s') with (log s ++ [NCb c d]). apply twin_lone; [split; trivial; intros [| |[]|[]|[]| | |[]|[]| |]; discriminate|]. exact i_twin0.
Qed.

Lemma T_release fs s s' c : frameq s s' -> log s' = log s -> (forall d, d <> c -> cs s' d = cs s d) -> k_live (cs s c) = true -> k_live (cs s' c) = false -> k_disc (cs s' c) = k_disc (cs s c) -> k_st (cs s c) = Disconnected -> c < nc s ->
  (forall h, h_own (hs s' h) = h_own (hs s h)) -> (forall h, hold (hs s' h) = true -> hold (hs s h) = true) -> lives c (log s) = Some (Parted None) \/ lives c (log s) = Some Called -> Lt fs s -> Lt fs s'.
Proof.
  intros [q1 q2 q3 q4 q5 q7 q8 q9 q10 q11 q12 q13] El A3 L L' Dd S N Ho Hh LL [].
  assert (Vl : forall e, k_live (cs s' e) = true -> e <> c /\ k_live (cs s e) = true) by (intros e X; assert (e <> c) by (intros ->; congruence); split; trivial; now rewrite A3 in X).
  assert (AL : forall e, alive s e -> alive s' e) by (intros e [X Y]; assert (e <> c) by (intros ->; congruence); unfold alive; now rewrite A3).
  constructor; trivial; rewrite ?q9, ?q10, ?q11, ?q12, ?q7, ?q5, ?El; trivial.
  - intros g I e. destruct (k_live (cs s' e)) eqn:X; trivial. apply Vl in X. rewrite (i_req0 g I) in X. now destruct X.
  - intros h H. rewrite Ho. apply i_own0. auto.
  - intros Cl e X. destruct (Vl e X) as [Y Z]. rewrite A3 by trivial. auto.
  - intros e. destruct (Nat.eq_dec e c) as [->|X].
    + unfold lok. rewrite q2, (proj2 (Nat.ltb_lt _ _) N), L'. exact LL.
    + apply (lok_view s); auto; now rewrite A3.
  - intros f I. apply (fok_mono s); auto; [lia|]. intros l e v g _. rewrite El. split; [now left|]. destruct (Nat.eq_dec e c) as [->|X]; trivial. now rewrite A3.
  - intros r b. rewrite (outs_ext s) by (trivial; intros; now rewrite q3). auto.
Qed.

(** * Closing the channel *)
Lemma T_closing fs s p : existsb is_uv fs = false -> cl s = false -> (forall c, k_live (cs s c) = true -> k_st (cs s c) <> Connected) -> p <> WReq -> (p = WOwn <-> ow s && lp s = true) -> Lt fs s -> Lt (Wait p true :: fs) (set_cl true s).
Proof.
  intros NU C A P1 P2 H. pose proof (no_wait _ _ H C) as NW. destruct H. constructor; cbn [set_cl log nr cb cl ow lp pend cs hs]; trivial.
  - intros f [<-|I]; [reflexivity|auto].
  - intros u q g v E. destruct u as [|x u]; cbn in E.
    + injection E as <- <- <-. split; [|now left]. intros f I. pose proof (not_uv _ _ NU I) as U. destruct f as [l k|q g]; [|now apply NW in I]. rewrite is_uv_k in U. destruct k; try discriminate; reflexivity.
    + injection E as <- E. exfalso. apply (NW q g). rewrite E. apply in_app_iff. right. now left.
  - intros g [X|I]; [congruence|now apply NW in I].
  - intros q g [X|I]; [injection X as <- <-; exact P2|now apply NW in I].
  - intros f [<-|I]; [exact Logic.I|]. now apply i_frm0 in I.
Qed.

Lemma quiet_konts fs : existsb is_uv fs = false -> quiet (konts fs).
Proof. intros E k I. unfold konts in I. apply in_flat_map in I. destruct I as (f & I & J). apply (not_uv fs) in I; trivial. destruct f as [l k'|]; [|destruct J]. destruct J as [->|[]]. rewrite is_uv_k in I. destruct k; try discriminate. eauto. Qed.
Lemma quiet_raw K s : quiet K -> raw K s = flat_map (raw_p s) (pend s).
Proof. intros Q. unfold raw. replace (flat_map (raw_k s) K) with (@nil nat); trivial. symmetry. induction K as [|k K IH]; trivial. destruct (Q k (or_introl eq_refl)) as (r & ->). cbn. apply IH. intros j I. apply Q. now right. Qed.

Lemma no_hold K s : Full K s -> quiet K -> (forall c, k_live (cs s c) = false) -> pend s = [] -> forall h, hold (hs s h) = false.
Proof.
  intros [C _ _] Q N P h. pose proof (h_ok _ _ _ _ _ C h) as H. unfold hok in H. unfold hold. rewrite quiet_raw, quiet_gone, P in H by trivial. destruct (h_st (hs s h)) as [|[]| |]; trivial.
  - destruct H as [[]|(c & _ & I & _)]. destruct (p_c _ _ _ _ _ C _ _ I) as (X & _). now rewrite N in X.
  - destruct H as (c & _ & I & _). destruct (g_c _ _ _ _ _ C _ _ I) as (_ & X & _). now rewrite N in X.
  - destruct H as (c & _ & [] & _).
Qed.

Lemma wait_top fs s p g : Lt (Wait p g :: fs) s -> existsb is_uv fs = false /\ g = true /\ (forall q h, ~ In (Wait q h) fs).
Proof.
  intros H. destruct (i_shape _ _ H [] p g fs eq_refl) as [X _]. repeat split.
  - destruct (existsb is_uv fs) eqn:E; trivial. apply existsb_exists in E. destruct E as (f & I & U). apply X in I. destruct f as [l []|]; discriminate.
  - exact (i_g _ _ H _ (or_introl eq_refl)).
  - intros q h I. apply X in I. discriminate.
Qed.

Lemma T_wreq fs s g : (forall c, k_live (cs s c) = false) -> Lt (Wait WPool g :: fs) s -> Lt (Wait WReq g :: fs) s.
Proof.
  intros N H. destruct (wait_top _ _ _ _ H) as (NU & -> & NW). pose proof (i_ow _ _ H WPool true (or_introl eq_refl)) as P. destruct H. constructor; trivial.
  - intros f [<-|I]; [reflexivity|apply i_g0; now right].
  - intros u q h v E. destruct u as [|x u]; cbn in E; [injection E as <- <- <-; destruct (i_shape0 [] WPool true fs eq_refl); auto|]. injection E as <- E. exfalso. apply (NW q h). rewrite E. apply in_app_iff. right. now left.
  - intros q h [X|I]; [injection X as <- <-|now apply NW in I]. split; [discriminate|]. intros X. apply P in X. discriminate.
  - intros f [<-|I]; [exact Logic.I|apply i_frm0; now right].
Qed.

Lemma T_finish fs s p g : (forall h, hold (hs s h) = false) -> pend s = [] -> Lt (Wait p g :: fs) s -> Lt fs (emit NClosed (set_cl false (set_loop false (ow s) s))).
Proof.
  intros N P H. destruct (wait_top _ _ _ _ H) as (NU & -> & NW). destruct H. set (s' := emit _ _).
  assert (IN : inert s NClosed) by (apply inert_about; auto).
  constructor; trivial.
  - intros f I. apply i_g0. now right.
  - symmetry. change (cl s') with false. destruct (existsb is_wait fs) eqn:E; trivial. apply existsb_exists in E. destruct E as (f & I & X). destruct f; try discriminate. now apply NW in I.
  - intros u q h v E. exfalso. apply (NW q h). rewrite E. apply in_app_iff. right. now left.
  - intros h I. now apply NW in I.
  - intros q h I. now apply NW in I.
  - intros h. change (hs s') with (hs s). rewrite N. discriminate.
  - discriminate.
  - intros c. change (log s') with (log s ++ [NClosed]). rewrite IN. apply (lok_view s); auto.
  - intros f I. apply (fok_ret s); [now apply (not_uv fs)|now cbn|apply i_frm0; now right].
  - change (log s') with (log s ++ [NClosed]). apply code_app; trivial. exact Logic.I.
  - change (log s') with (log s ++ [NClosed]). apply timely_snoc; trivial. discriminate.
  - intros r b. specialize (i_ans0 r b). change (log s') with (log s ++ [NClosed]). change (outs r s') with (outs r s). revert i_ans0. unfold jret. change (rests (Wait p true :: fs)) with (rests fs). cn. cbn [is_ans is_ret0]. lia.
  - intros r. specialize (i_ret0 r). change (log s') with (log s ++ [NClosed]). change (nr s') with (nr s). revert i_ret0. unfold jret. cn. cbn [is_ret]. lia.
  - change (log s') with (log s ++ [NClosed]). apply twin_lone; trivial. split; trivial. intros [| |[]|[]|[]| | |[]|[]| |]; discriminate.
Qed.

Lemma T_init s b w : lp s = false -> Lt [] s -> Lt [] (set_cl false (set_cb false (set_loop b w s))).
Proof.
  intros P H. destruct H. constructor; cbn [set_cl set_cb set_loop log nr cb cl ow lp pend cs hs]; trivial; try (intros; discriminate); try contradiction.
  - intros h X. apply i_own0 in X. destruct X. congruence.
  - auto.
Qed.
(** A loop of its own. *)
Lemma T_loop fs s : lp s = false -> cl s = false -> Lt fs s -> Lt fs (set_loop true true s).
Proof.
  intros P C H. pose proof (no_wait _ _ H C) as NW. destruct H. constructor; cbn [set_loop log nr cb cl ow lp pend cs hs]; trivial.
  - intros q g I. now apply NW in I.
  - intros h X. apply i_own0 in X. destruct X. congruence.
  - discriminate.
Qed.
