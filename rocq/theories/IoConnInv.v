(** Invariant of the connection machine (IoConn.v): who owns which handle, connection and
    request.  Lemmas about its primitive operations. *)
From Coq Require Import Permutation.
From Verif Require Import Base IoConn.
Ltac Zify.zify_post_hook ::= idtac.

(** Open handles bound to nothing yet, with the continuation or request that owns them. *)
Definition stream (s : st) (a : nat) : list nat := match a_kind (az s a) with AStream h _ => [h] | AName _ => [] end.
Definition raw_k s (k : kont) : list nat := match k with JConn a false _ => stream s a | JAcc (Some h) _ => [h] | _ => [] end.
Definition raw_p s (p : pnd) : list nat := match p with PConn a => stream s a | _ => [] end.
Definition raw (K : list kont) s : list nat := flat_map (raw_k s) K ++ flat_map (raw_p s) (pend s).
(** Asynchronous data in use. *)
Definition as_k (k : kont) : list nat := match k with JName a _ | JConn a _ _ => [a] | _ => [] end.
Definition as_p (p : pnd) : list nat := match p with PConn a | PDns a => [a] | PWrite _ => [] end.
Definition araw (K : list kont) s : list nat := flat_map as_k K ++ flat_map as_p (pend s).
(** Connections being written to. *)
Definition wr_k (k : kont) : list nat := match k with JWrit c _ => [c] | _ => [] end.
Definition wr_p (p : pnd) : list nat := match p with PWrite c => [c] | _ => [] end.
Definition wraw (K : list kont) s : list nat := flat_map wr_k K ++ flat_map wr_p (pend s).
(** Connections whose close callback runs. *)
Definition gone_k (k : kont) : list nat := match k with JGone c _ _ | JErase c _ _ => [c] | _ => [] end.
Definition gone (K : list kont) : list nat := flat_map gone_k K.

Definition hok (R A G : list nat) s h : Prop :=
  match h_st (hs s h) with
  | HOpen => In h R \/ exists c, h_data (hs s h) = DConn c /\ In (k_fd (cs s c), c) (pool s) /\ k_h (cs s c) = h
  | HClosing CConn => exists c, h_data (hs s h) = DConn c /\ In (c, c) (gc s) /\ k_h (cs s c) = h /\ k_st (cs s c) = Disconnecting
  | HClosing CAsync => exists a p, h_data (hs s h) = DAsync a /\ a_live (az s a) = true /\ a_kind (az s a) = AStream h p /\ ~ In a A
  | HClosing CPtr => h_data (hs s h) = DPtr
  | HClosed => exists c, h_data (hs s h) = DConn c /\ In c G /\ k_h (cs s c) = h
  | HFreed => True
  end.

Record Core (R A W G : list nat) (s : st) : Prop := {
  r_nd : NoDup R;
  r_h : forall h, In h R -> h < nh s /\ h_st (hs s h) = HOpen /\ h_data (hs s h) = DNull /\ h_use (hs s h) = UNone;
  h_ok : forall h, hok R A G s h;
  h_out : forall h, nh s <= h -> h_st (hs s h) = HFreed;
  p_nd : NoDup (map fst (pool s));
  p_c : forall f c, In (f, c) (pool s) -> k_live (cs s c) = true /\ k_fd (cs s c) = f /\ h_st (hs s (k_h (cs s c))) = HOpen /\
          h_data (hs s (k_h (cs s c))) = DConn c /\ h_fd (hs s (k_h (cs s c))) = Some f /\ k_cl (cs s c) = false /\
          (k_st (cs s c) = Connected \/ k_st (cs s c) = Disconnecting /\ k_wr (cs s c) = true);
  g_nd : NoDup (map fst (gc s));
  g_c : forall p c, In (p, c) (gc s) -> p = c /\ k_live (cs s c) = true /\ k_cl (cs s c) = true /\ h_data (hs s (k_h (cs s c))) = DConn c /\
          (k_st (cs s c) = Disconnecting /\ h_st (hs s (k_h (cs s c))) = HClosing CConn \/
           k_st (cs s c) = Disconnected /\ h_st (hs s (k_h (cs s c))) = HClosed /\ In c G);
  l_c : forall c, k_live (cs s c) = true -> c < nc s /\ (In (k_fd (cs s c), c) (pool s) \/ In (c, c) (gc s));
  a_nd : NoDup A;
  a_ok : forall a, In a A -> a_live (az s a) = true;
  a_l : forall a, a_live (az s a) = true -> a < na s /\ (In a A \/ exists h p, a_kind (az s a) = AStream h p /\ h_st (hs s h) = HClosing CAsync /\ h_data (hs s h) = DAsync a);
  w_nd : NoDup W;
  w_c : forall c, In c W <-> k_live (cs s c) = true /\ k_wr (cs s c) = true;
  n_req : reqs s = length (pend s) }.

Definition kok s (k : kont) : Prop :=
  match k with
  | JRet _ => True
  | JName a _ => exists b, a_kind (az s a) = AName b
  | JConn a _ _ => exists h p, a_kind (az s a) = AStream h p
  | JAcc _ _ => True
  | JGone c v _ | JErase c v _ => In (c, c) (gc s) /\ k_live (cs s c) = true /\ k_st (cs s c) = Disconnected /\ k_wr (cs s c) = false /\ v = gv s
  | JRead c _ _ | JFail c _ _ | JWrit c _ => k_live (cs s c) = true /\ k_st (cs s c) <> Disconnected
  | JCanc c _ => k_live (cs s c) = true /\ k_st (cs s c) = Disconnecting /\ k_cl (cs s c) = true /\ k_wr (cs s c) = false
  end.
Definition pok s (p : pnd) : Prop :=
  match p with
  | PConn a => exists h q, a_kind (az s a) = AStream h q
  | PDns a => exists b, a_kind (az s a) = AName b
  | PWrite c => True
  end.

Record Full (K : list kont) (s : st) : Prop := {
  f_core : Core (raw K s) (araw K s) (wraw K s) (gone K) s;
  f_k : forall k, In k K -> kok s k;
  f_p : forall p, In p (pend s) -> pok s p }.

(** Handles that belong to a connection or to a request. *)
Definition hold (x : hnd) : bool := match h_st x with HOpen | HClosing CConn | HClosed => true | _ => false end.

(** * Generalities *)
Lemma upd_same {A} (f : nat -> A) i x : upd f i x i = x.
Proof. unfold upd. now rewrite Nat.eqb_refl. Qed.
Lemma upd_other {A} (f : nat -> A) i j x : j <> i -> upd f i x j = f j.
Proof. intros H. unfold upd. destruct (Nat.eqb_spec j i); [contradiction|reflexivity]. Qed.

(** The fields [Full] looks at. *)
Definition same s t : Prop :=
  hs t = hs s /\ nh t = nh s /\ cs t = cs s /\ nc t = nc s /\ az t = az s /\ na t = na s /\ pool t = pool s /\ gc t = gc s /\ gv t = gv s /\ pend t = pend s /\ reqs t = reqs s.
Lemma full_same K s t : same s t -> Full K s -> Full K t.
Proof.
  destruct s, t. unfold same. cbn. intros (-> & -> & -> & -> & -> & -> & -> & -> & -> & -> & ->) [C F P]. split; [|exact F|exact P].
  destruct C. constructor; assumption.
Qed.
Ltac samely := match goal with H : Full ?K ?s |- Full ?K _ => apply (full_same K s); [repeat split|exact H] end.

Lemma core_perm R A W G R' A' W' G' s : Permutation R R' -> Permutation A A' -> Permutation W W' -> Permutation G G' -> Core R A W G s -> Core R' A' W' G' s.
Proof.
  intros PR PA PW PG C.
  assert (IR : forall x, In x R <-> In x R') by (split; apply Permutation_in; [|symmetry]; assumption).
  assert (IA : forall x, In x A <-> In x A') by (split; apply Permutation_in; [|symmetry]; assumption).
  assert (IW : forall x, In x W <-> In x W') by (split; apply Permutation_in; [|symmetry]; assumption).
  assert (IG : forall x, In x G <-> In x G') by (split; apply Permutation_in; [|symmetry]; assumption).
  destruct C as [r1 r2 h1 h2 p1 p2 g1 g2 l1 a1 a2 a3 w1 w2 n1].
  constructor; trivial.
  - now apply (Permutation_NoDup PR).
  - intros h H. apply r2. now apply IR.
  - intros h. specialize (h1 h). unfold hok in *. destruct (h_st (hs s h)) as [|[]| |]; trivial.
    + destruct h1 as [H|H]; [left; now apply IR|now right].
    + destruct h1 as (a & p & H1 & H2 & H3 & H4). exists a, p. repeat split; trivial. intros H. apply H4. now apply IA.
    + destruct h1 as (c & H1 & H2 & H3). exists c. repeat split; trivial. now apply IG.
  - intros p c H. destruct (g2 p c H) as (H1 & H2 & H3 & H4 & H5). repeat split; trivial. destruct H5 as [H5|(H5 & H6 & H7)]; [now left|right]. repeat split; trivial. now apply IG.
  - now apply (Permutation_NoDup PA).
  - intros a H. apply a2. now apply IA.
  - intros a H. destruct (a3 a H) as (H1 & [H2|H2]); split; trivial; [left; now apply IA|now right].
  - now apply (Permutation_NoDup PW).
  - intros c. rewrite <- IW. apply w2.
Qed.

Lemma full_perm K K' s : Permutation K K' -> Full K s -> Full K' s.
Proof.
  intros P [C F Q]. constructor; trivial.
  - revert C. apply core_perm; unfold raw, araw, wraw, gone; try apply Permutation_app_tail; now apply Permutation_flat_map.
  - intros k H. apply F. now apply (Permutation_in (l := K')); [symmetry|].
Qed.

(** Two continuations owning the same things. *)
Lemma full_swap k k' K s : raw_k s k = raw_k s k' -> as_k k = as_k k' -> wr_k k = wr_k k' -> gone_k k = gone_k k' -> kok s k' -> Full (k :: K) s -> Full (k' :: K) s.
Proof.
  intros R A W G O [C F P]. constructor; trivial.
  - unfold raw, araw, wraw, gone in *. cbn [flat_map] in *. now rewrite <- R, <- A, <- W, <- G.
  - intros j [<-|H]; trivial. apply F. now right.
Qed.
(** A continuation owning nothing. *)
Lemma full_drop k K s : raw_k s k = [] -> as_k k = [] -> wr_k k = [] -> gone_k k = [] -> Full (k :: K) s -> Full K s.
Proof.
  intros R A W G [C F P]. constructor; trivial.
  - unfold raw, araw, wraw, gone in *. cbn [flat_map] in *. rewrite R, A, W, G in C. exact C.
  - intros j H. apply F. now right.
Qed.
Lemma full_add k K s : raw_k s k = [] -> as_k k = [] -> wr_k k = [] -> gone_k k = [] -> kok s k -> Full K s -> Full (k :: K) s.
Proof.
  intros R A W G O [C F P]. constructor; trivial.
  - unfold raw, araw, wraw, gone in *. cbn [flat_map]. rewrite R, A, W, G. exact C.
  - intros j [<-|H]; auto.
Qed.

Lemma pnd_eqb_spec p q : reflect (p = q) (pnd_eqb p q).
Proof. destruct p, q; cbn; try (constructor; discriminate); destruct (Nat.eqb_spec a a0) || destruct (Nat.eqb_spec c c0); constructor; congruence. Qed.
Lemma has_in p s : has p s = true -> In p (pend s).
Proof. unfold has. intros H. apply existsb_exists in H. destruct H as (q & I & E). destruct (pnd_eqb_spec p q); [now subst|discriminate]. Qed.
Lemma drop_perm p l : In p l -> Permutation l (p :: drop p l).
Proof.
  induction l as [|q l IH]; intros H; [destruct H|]. cbn [drop]. destruct (pnd_eqb_spec p q) as [->|N]; [reflexivity|].
  destruct H as [->|H]; [contradiction|]. transitivity (q :: p :: drop p l); [now apply perm_skip, IH|apply perm_swap].
Qed.
Lemma drop_incl p l : incl (drop p l) l.
Proof. induction l as [|q l IH]; intros x H; [destruct H|]. cbn [drop] in H. destruct (pnd_eqb p q); [now right|]. destruct H as [->|H]; [now left|right; auto]. Qed.

Lemma find_pool_in R A W G s f c : Core R A W G s -> In (f, c) (pool s) -> find_pool f s = Some c.
Proof.
  intros C H. pose proof (p_nd _ _ _ _ _ C) as N. unfold find_pool. induction (pool s) as [|[g d] l IH]; [destruct H|]. cbn [find fst]. inversion N as [|x y Nx Ny]; subst.
  destruct H as [E|H].
  - injection E as -> ->. now rewrite N.eqb_refl.
  - destruct (N.eqb_spec g f) as [->|]; [|now apply IH]. destruct Nx. change f with (fst (f, c)). now apply in_map.
Qed.
Lemma find_pool_some f s c : find_pool f s = Some c -> In (f, c) (pool s).
Proof.
  unfold find_pool. intros H. destruct (find _ (pool s)) as [[g d]|] eqn:E; [|discriminate]. injection H as ->. apply find_some in E. cbn in E. destruct E as [I E]. apply N.eqb_eq in E. now subst.
Qed.
Lemma find_gc_in R A W G s c : Core R A W G s -> In (c, c) (gc s) -> find_gc c s = Some c.
Proof.
  intros C H. pose proof (g_nd _ _ _ _ _ C) as N. pose proof (g_c _ _ _ _ _ C) as Q. unfold find_gc. induction (gc s) as [|[g d] l IH]; [destruct H|]. cbn [find fst]. inversion N as [|x y Nx Ny]; subst.
  destruct H as [E|H].
  - injection E as -> ->. now rewrite Nat.eqb_refl.
  - destruct (Nat.eqb_spec g c) as [->|]; [|apply IH; trivial; intros; apply Q; now right]. destruct Nx. change c with (fst (c, c)). now apply in_map.
Qed.

Lemma nodup_filter {B} (f : B -> bool) {C} (g : B -> C) l : NoDup (map g l) -> NoDup (map g (filter f l)).
Proof.
  induction l as [|x l IH]; intros H; cbn; [constructor|]. inversion H; subst. destruct (f x); cbn; auto. constructor; auto.
  intros I. apply in_map_iff in I. destruct I as (y & E & I). apply filter_In in I. match goal with H : ~ In _ _ |- _ => apply H end. rewrite <- E. now apply in_map.
Qed.

(** * Primitives *)
Lemma full_new_handle K s pipe g : Full K s -> Full (JAcc (Some (nh s)) g :: K) (fst (new_handle pipe s)).
Proof.
  intros [C F P]. cbn [fst new_handle]. set (s' := set_nh _ _). set (h := nh s) in *.
  assert (Hs : forall j, j <> h -> hs s' j = hs s j) by (intros; now apply upd_other).
  assert (Hh : hs s' h = {| h_st := HOpen; h_data := DNull; h_use := UNone; h_fd := None; h_own := ow s; h_pipe := pipe |}) by apply upd_same.
  assert (Hf : h_st (hs s h) = HFreed) by now apply (h_out _ _ _ _ _ C).
  assert (HR : raw (JAcc (Some h) g :: K) s' = h :: raw K s) by reflexivity.
  constructor.
  - rewrite HR. unfold araw, wraw, gone. cbn [flat_map as_k wr_k gone_k app]. change (pend s') with (pend s). fold (araw K s) (wraw K s) (gone K).
    destruct C as [r1 r2 h1 h2 p1 p2 g1 g2 l1 a1 a2 a3 w1 w2 n1]. constructor; trivial.
    + constructor; trivial. intros I. destruct (r2 h I) as (H & _). unfold h in H. lia.
    + intros j [<-|I].
      * rewrite Hh. repeat split. cbn. lia.
      * destruct (r2 j I) as (X1 & X2 & X3 & X4). rewrite Hs by (unfold h; lia). repeat split; trivial. cbn. lia.
    + intros j. unfold hok. destruct (Nat.eq_dec j h) as [->|N].
      * rewrite Hh. cbn. left. now left.
      * rewrite Hs by trivial. specialize (h1 j). unfold hok in h1. destruct (h_st (hs s j)) as [|[]| |]; trivial. destruct h1 as [H|H]; [left; now right|now right].
    + intros j L. cbn in L. rewrite Hs; [apply h2|]; unfold h; lia.
    + intros f c I. destruct (p2 f c I) as (X1 & X2 & X3 & X4 & X5 & X6 & X7). assert (k_h (cs s c) <> h) by (intros E; rewrite E in X3; congruence).
      change (cs s') with (cs s). rewrite !Hs by trivial. repeat split; trivial.
    + intros p c I. destruct (g2 p c I) as (X1 & X2 & X3 & X4 & X5). assert (k_h (cs s c) <> h) by (intros E; rewrite E in X5; destruct X5 as [(_ & X5)|(_ & X5 & _)]; congruence).
      change (cs s') with (cs s). rewrite !Hs by trivial. repeat split; trivial.
    + intros a L. destruct (a3 a L) as (X1 & [X2|(j & p & X2 & X3 & X4)]); split; trivial; [now left|right]. exists j, p. rewrite !Hs by (intros E; rewrite E in X3; congruence). auto.
  - intros k [<-|H]; [exact Logic.I|exact (F k H)].
  - exact P.
Qed.

Lemma full_shut_ptr K s h g : Full (JAcc (Some h) g :: K) s -> exists s', shut_ptr h s = Go s' /\ Full K s' /\ exists v, s' = set_hs v s /\ forall j, hold (v j) = true -> hold (hs s j) = true /\ h_own (v j) = h_own (hs s j).
Proof.
  intros [C F P]. assert (HR : raw (JAcc (Some h) g :: K) s = h :: raw K s) by reflexivity. rewrite HR in C.
  destruct (r_h _ _ _ _ _ C h (or_introl eq_refl)) as (B1 & B2 & B3 & B4).
  unfold shut_ptr. rewrite B3. unfold uv_close, is_open. cbn [on_h hs set_hs]. rewrite upd_same. cbn [h_st h_bind]. rewrite B2. eexists. split; [reflexivity|]. split; [|eexists; split; [reflexivity|intros j; cbn [hs on_h set_hs]; unfold upd; destruct (Nat.eqb_spec j h) as [->|]; [discriminate|auto]]].
  set (s' := on_h _ _ _).
  assert (Hh : h_st (hs s' h) = HClosing CPtr /\ h_data (hs s' h) = DPtr) by (subst s'; unfold on_h; cbn [hs set_hs]; rewrite !upd_same; split; reflexivity).
  assert (Hs : forall j, j <> h -> hs s' j = hs s j) by (intros j N; subst s'; unfold on_h; cbn [hs set_hs]; now rewrite !upd_other).
  constructor.
  - change (araw K s') with (araw (JAcc (Some h) g :: K) s). change (raw K s') with (raw K s). change (wraw K s') with (wraw (JAcc (Some h) g :: K) s). change (gone K) with (gone (JAcc (Some h) g :: K)).
    destruct C as [r1 r2 h1 h2 p1 p2 g1 g2 l1 a1 a2 a3 w1 w2 n1]. inversion r1 as [|x y Nx Ny]; subst x y. constructor; trivial.
    + intros j I. rewrite Hs by (intros ->; contradiction). apply r2. now right.
    + intros j. unfold hok. destruct (Nat.eq_dec j h) as [->|N].
      * destruct Hh as [-> ->]. reflexivity.
      * rewrite Hs by trivial. specialize (h1 j). unfold hok in h1. destruct (h_st (hs s j)) as [|[]| |]; trivial. destruct h1 as [[H|H]|H]; [congruence|now left|now right].
    + intros j L. rewrite Hs; [now apply h2|]. cbn in L. lia.
    + intros f c I. destruct (p2 f c I) as (X1 & X2 & X3 & X4 & X5 & X6 & X7). assert (k_h (cs s c) <> h) by (intros E; rewrite E in X4; congruence).
      change (cs s') with (cs s). rewrite !Hs by trivial. repeat split; trivial.
    + intros p c I. destruct (g2 p c I) as (X1 & X2 & X3 & X4 & X5). assert (k_h (cs s c) <> h) by (intros E; rewrite E in X4; congruence).
      change (cs s') with (cs s). rewrite !Hs by trivial. repeat split; trivial.
    + intros a L. destruct (a3 a L) as (X1 & [X2|(j & p & X2 & X3 & X4)]); split; trivial; [now left|right]. exists j, p. rewrite !Hs by (intros E; rewrite E in X4; congruence). auto.
  - intros k H. exact (F k (or_intror H)).
  - exact P.
Qed.

Lemma full_shut_async K s a g : Full (JConn a false g :: K) s -> exists s', shut_async a s = Go s' /\ Full K s' /\ exists v, s' = set_hs v s /\ forall j, hold (v j) = true -> hold (hs s j) = true /\ h_own (v j) = h_own (hs s j).
Proof.
  intros [C F P]. destruct (F _ (or_introl eq_refl)) as (h & p & Ka). assert (HR : raw (JConn a false g :: K) s = h :: raw K s) by (unfold raw; cbn [flat_map raw_k]; unfold stream; now rewrite Ka). rewrite HR in C.
  assert (HA : araw (JConn a false g :: K) s = a :: araw K s) by reflexivity. rewrite HA in C.
  destruct (r_h _ _ _ _ _ C h (or_introl eq_refl)) as (B1 & B2 & B3 & B4).
  pose proof (a_ok _ _ _ _ _ C a (or_introl eq_refl)) as La.
  unfold shut_async. rewrite Ka, B3. unfold uv_close, is_open. cbn [on_h hs set_hs]. rewrite upd_same. cbn [h_st h_bind]. rewrite B2. eexists. split; [reflexivity|]. split; [|eexists; split; [reflexivity|intros j; cbn [hs on_h set_hs]; unfold upd; destruct (Nat.eqb_spec j h) as [->|]; [discriminate|auto]]].
  set (s' := on_h _ _ _).
  assert (Hh : h_st (hs s' h) = HClosing CAsync /\ h_data (hs s' h) = DAsync a) by (subst s'; unfold on_h; cbn [hs set_hs]; rewrite !upd_same; split; reflexivity).
  assert (Hs : forall j, j <> h -> hs s' j = hs s j) by (intros j N; subst s'; unfold on_h; cbn [hs set_hs]; now rewrite !upd_other).
  constructor.
  - change (araw K s') with (araw K s). change (raw K s') with (raw K s). change (wraw K s') with (wraw (JConn a false g :: K) s). change (gone K) with (gone (JConn a false g :: K)).
    destruct C as [r1 r2 h1 h2 p1 p2 g1 g2 l1 a1 a2 a3 w1 w2 n1]. inversion r1 as [|x y Nx Ny]; subst x y. inversion a1 as [|x y Ax Ay]; subst x y. constructor; trivial.
    + intros j I. rewrite Hs by (intros ->; contradiction). apply r2. now right.
    + intros j. unfold hok. destruct (Nat.eq_dec j h) as [->|N].
      * destruct Hh as [-> ->]. exists a, p. auto.
      * rewrite Hs by trivial. specialize (h1 j). unfold hok in h1. destruct (h_st (hs s j)) as [|[]| |]; trivial.
        -- destruct h1 as [[H|H]|H]; [congruence|now left|now right].
        -- destruct h1 as (b & q & X1 & X2 & X3 & X4). exists b, q. repeat split; trivial. intros I. apply X4. now right.
    + intros j L. rewrite Hs; [now apply h2|]. cbn in L. lia.
    + intros f c I. destruct (p2 f c I) as (X1 & X2 & X3 & X4 & X5 & X6 & X7). assert (k_h (cs s c) <> h) by (intros E; rewrite E in X4; congruence).
      change (cs s') with (cs s). rewrite !Hs by trivial. repeat split; trivial.
    + intros q c I. destruct (g2 q c I) as (X1 & X2 & X3 & X4 & X5). assert (k_h (cs s c) <> h) by (intros E; rewrite E in X4; congruence).
      change (cs s') with (cs s). rewrite !Hs by trivial. repeat split; trivial.
    + intros b I. apply a2. now right.
    + intros b L. destruct (a3 b L) as (X1 & [[X2|X2]|(j & q & X2 & X3 & X4)]); split; trivial.
      * subst b. right. exists h, p. destruct Hh. auto.
      * now left.
      * right. exists j, q. rewrite !Hs by (intros E; rewrite E in X4; congruence). auto.
  - intros k H. exact (F k (or_intror H)).
  - exact P.
Qed.

(** [kok] depends only on live connections, [gc], its generation and the kinds of the data. *)
Lemma kok_keep s s' k : (forall c, k_live (cs s c) = true -> cs s' c = cs s c) -> (forall c, In (c, c) (gc s) -> In (c, c) (gc s')) -> gv s' = gv s ->
  (forall a, a_kind (az s a) = a_kind (az s' a)) -> kok s k -> kok s' k.
Proof.
  intros Hc Hg Hv Ha. destruct k; cbn [kok]; rewrite <- ?Ha, ?Hv; trivial.
  - intros (X1 & X2 & X3 & X4 & X5). rewrite !Hc by trivial. repeat split; auto.
  - intros (X1 & X2 & X3 & X4 & X5). rewrite !Hc by trivial. repeat split; auto.
  - intros (X1 & X2). now rewrite !Hc by trivial.
  - intros (X1 & X2). now rewrite !Hc by trivial.
  - intros (X1 & X2). now rewrite !Hc by trivial.
  - intros (X1 & X2 & X3 & X4). rewrite !Hc by trivial. auto.
Qed.

Lemma fd_free_out R A W G s f d c : Core R A W G s -> fd_free f s = true -> In (d, c) (pool s) -> d <> f.
Proof.
  intros C H I ->. destruct (p_c _ _ _ _ _ C f c I) as (X1 & X2 & X3 & X4 & X5 & X6 & X7).
  unfold fd_free in H. rewrite forallb_forall in H. specialize (H (k_h (cs s c))). unfold is_open in H. rewrite X3, X5, N.eqb_refl in H. discriminate H.
  apply in_seq. destruct (le_lt_dec (nh s) (k_h (cs s c))) as [L|L]; [|lia]. rewrite (h_out _ _ _ _ _ C _ L) in X3. discriminate.
Qed.

Lemma full_make_conn k k' K s h f lis : Full (k :: K) s -> raw_k s k = [h] -> (forall s, raw_k s k' = []) -> as_k k' = as_k k -> wr_k k = [] -> wr_k k' = [] -> gone_k k = [] -> gone_k k' = [] ->
  (kok s k -> kok (fst (make_conn h f lis s)) k') -> fd_free f s = true -> Full (k' :: K) (fst (make_conn h f lis s)).
Proof.
  intros [C F P] Rk Rk' Ak Wk Wk' Gk Gk' Ok Fr. set (s' := fst _) in *. set (c := nc s).
  assert (HR : raw (k :: K) s = h :: raw K s) by (unfold raw; cbn [flat_map]; now rewrite Rk).
  assert (HR' : raw (k' :: K) s' = raw K s) by (unfold raw; cbn [flat_map]; rewrite Rk'; reflexivity).
  assert (HA : araw (k' :: K) s' = araw (k :: K) s) by (unfold araw; cbn [flat_map]; now rewrite Ak).
  assert (HW : wraw (k' :: K) s' = wraw (k :: K) s) by (unfold wraw; cbn [flat_map]; now rewrite Wk, Wk').
  assert (HG : gone (k' :: K) = gone (k :: K)) by (unfold gone; cbn [flat_map]; now rewrite Gk, Gk').
  rewrite HR in C. destruct (r_h _ _ _ _ _ C h (or_introl eq_refl)) as (B1 & B2 & B3 & B4).
  assert (Lc : k_live (cs s c) = false) by (destruct (k_live (cs s c)) eqn:E; trivial; destruct (l_c _ _ _ _ _ C c E); unfold c in *; lia).
  assert (Hc : cs s' c = {| k_live := true; k_h := h; k_fd := f; k_st := Connected; k_wr := false; k_cl := false; k_disc := None; k_q := 0; k_fly := 0 |}) by (subst s'; cbn; unfold c; now rewrite upd_same).
  assert (Hcs : forall d, d <> c -> cs s' d = cs s d) by (intros d N; subst s'; cbn; unfold c in N; now rewrite upd_other).
  assert (Hlv : forall d, k_live (cs s d) = true -> cs s' d = cs s d) by (intros d L; apply Hcs; intros ->; congruence).
  assert (Hh : h_st (hs s' h) = HOpen /\ h_data (hs s' h) = DConn c /\ h_fd (hs s' h) = Some f) by (subst s'; cbn; rewrite upd_same; cbn; auto).
  assert (Hs : forall j, j <> h -> hs s' j = hs s j) by (intros j N; subst s'; cbn; now rewrite upd_other).
  assert (Hp : pool s' = (f, c) :: filter (fun e => negb (fst e =? f)%N) (pool s)) by reflexivity.
  assert (Pl : forall d e, In (d, e) (pool s) <-> In (d, e) (filter (fun e => negb (fst e =? f)%N) (pool s))).
  { intros d e. rewrite filter_In. cbn. split; [|tauto]. intros I. split; trivial. pose proof (fd_free_out _ _ _ _ _ _ _ _ C Fr I) as N. apply N.eqb_neq in N. now rewrite N. }
  constructor.
  - rewrite HR', HA, HW, HG. destruct C as [r1 r2 h1 h2 p1 p2 g1 g2 l1 a1 a2 a3 w1 w2 n1]. inversion r1 as [|x y Nx Ny]; subst x y. constructor; trivial.
    + intros j I. rewrite Hs by (intros ->; contradiction). apply r2. now right.
    + intros j. unfold hok. destruct (Nat.eq_dec j h) as [->|N].
      * destruct Hh as (-> & -> & _). right. exists c. rewrite Hc. cbn [k_fd k_h]. repeat split. rewrite Hp. now left.
      * rewrite Hs by trivial. specialize (h1 j). unfold hok in h1. destruct (h_st (hs s j)) as [|[]| |]; trivial.
        -- destruct h1 as [[H|H]|(d & X1 & X2 & X3)]; [congruence|now left|right]. destruct (p2 _ _ X2) as (Y & _). exists d. rewrite Hlv by trivial. repeat split; trivial. rewrite Hp. right. now apply Pl.
        -- destruct h1 as (d & X1 & X2 & X3). destruct (g2 _ _ X2) as (_ & Y & _). exists d. rewrite Hlv by trivial. auto.
        -- destruct h1 as (d & X1 & X2 & X3). exists d. rewrite Hcs; [auto|]. intros ->. rewrite <- HG in X2. unfold gone in X2. cbn [flat_map] in X2. rewrite Gk' in X2. cbn [app] in X2. apply in_flat_map in X2. destruct X2 as (q & X4 & X5).
           specialize (F q (or_intror X4)). destruct q; cbn in X5; try contradiction; destruct X5 as [->|[]]; cbn [kok] in F; destruct F as (_ & F & _); congruence.
    + intros j L. rewrite Hs; [now apply h2|]. cbn in L. lia.
    + rewrite Hp. cbn [map fst]. constructor; [|now apply nodup_filter]. intros I. apply in_map_iff in I. destruct I as ([d e] & E & I). cbn in E. subst d. apply filter_In in I. cbn in I. rewrite N.eqb_refl in I. now destruct I.
    + intros d e I. rewrite Hp in I. destruct I as [E|I].
      * injection E as <- <-. rewrite Hc. cbn [k_live k_h k_fd k_st k_wr k_cl]. destruct Hh as (-> & -> & ->). repeat split; trivial. now left.
      * apply Pl in I. destruct (p2 d e I) as (X1 & X2 & X3 & X4 & X5 & X6 & X7). rewrite Hlv by trivial. assert (k_h (cs s e) <> h) by (intros E; rewrite E in X4; congruence). rewrite !Hs by trivial. repeat split; trivial.
    + intros q d I. destruct (g2 q d I) as (X1 & X2 & X3 & X4 & X5). rewrite Hlv by trivial. assert (k_h (cs s d) <> h) by (intros E; rewrite E in X4; congruence). rewrite !Hs by trivial. repeat split; trivial.
    + intros d L. change (nc s') with (S (nc s)). destruct (Nat.eq_dec d c) as [->|N].
      * split; [unfold c; lia|]. left. rewrite Hc, Hp. now left.
      * rewrite Hcs in L by trivial. destruct (l1 d L) as (X1 & X2). split; [lia|]. rewrite Hcs by trivial. destruct X2 as [X2|X2]; [left|now right]. rewrite Hp. right. now apply Pl.
    + intros b L. destruct (a3 b L) as (X1 & [X2|(j & q & X2 & X3 & X4)]); split; trivial; [now left|].
      right. exists j, q. rewrite !Hs by (intros E; rewrite E in X4; congruence). auto.
    + intros d. rewrite w2. destruct (Nat.eq_dec d c) as [->|N]; [|now rewrite Hcs]. rewrite Hc, Lc. cbn. split; intros (X & Y); discriminate.
  - intros q [<-|H]; [apply Ok, F; now left|]. apply (kok_keep s); trivial; auto. apply F. now right.
  - intros q H. specialize (P q H). destruct q; exact P.
Qed.

(** New data for a connect, taking over the handle. *)
Lemma full_new_stream K s h g g' r pipe : Full (JAcc (Some h) g :: K) s ->
  Full (JConn (na s) false g' :: K) (set_na (S (na s)) (set_az (upd (az s) (na s) {| a_live := true; a_req := r; a_kind := AStream h pipe |}) s)).
Proof.
  intros [C F P]. set (s' := set_na _ _). set (a := na s).
  assert (HR : raw (JAcc (Some h) g :: K) s = h :: raw K s) by reflexivity. rewrite HR in C.
  assert (Ha : az s' a = {| a_live := true; a_req := r; a_kind := AStream h pipe |}) by (unfold s', a; cbn [az set_na set_az]; apply upd_same).
  assert (Has : forall b, b <> a -> az s' b = az s b) by (intros b N; unfold s', a; cbn [az set_na set_az]; now apply upd_other).
  assert (La : a_live (az s a) = false) by (destruct (a_live (az s a)) eqn:E; trivial; destruct (a_l _ _ _ _ _ C a E); unfold a in *; lia).
  assert (Hin : forall b, In b (araw K s) -> az s' b = az s b). { intros b I. apply Has. intros ->. pose proof (a_ok _ _ _ _ _ C a I). congruence. }
  assert (Hst : forall b, In b (araw K s) -> stream s' b = stream s b) by (intros b I; unfold stream; now rewrite Hin).
  assert (Hrk : flat_map (raw_k s') K = flat_map (raw_k s) K).
  { rewrite !flat_map_concat_map. f_equal. apply map_ext_in. intros k I. destruct k; cbn; trivial. destruct ok; trivial. apply Hst. unfold araw. apply in_or_app. left. apply in_flat_map. eexists. split; [exact I|now left]. }
  assert (Hrp : flat_map (raw_p s') (pend s) = flat_map (raw_p s) (pend s)).
  { rewrite !flat_map_concat_map. f_equal. apply map_ext_in. intros k I. destruct k; cbn; trivial. apply Hst. unfold araw. apply in_or_app. right. apply in_flat_map. eexists. split; [exact I|now left]. }
  assert (HR' : raw (JConn a false g' :: K) s' = h :: raw K s) by (unfold raw; cbn [flat_map raw_k]; unfold stream at 1; rewrite Ha; cbn [a_kind app]; change (pend s') with (pend s); now rewrite Hrk, Hrp).
  assert (HA' : araw (JConn a false g' :: K) s' = a :: araw K s) by reflexivity.
  constructor.
  - rewrite HR', HA'. change (wraw (JConn a false g' :: K) s') with (wraw (JAcc (Some h) g :: K) s). change (gone (JConn a false g' :: K)) with (gone (JAcc (Some h) g :: K)).
    change (araw (JAcc (Some h) g :: K) s) with (araw K s) in C.
    destruct C as [r1 r2 h1 h2 p1 p2 g1 g2 l1 a1 a2 a3 w1 w2 n1]. constructor; trivial.
    + intros j. specialize (h1 j). unfold hok in *. change (hs s' j) with (hs s j). destruct (h_st (hs s j)) as [|[]| |]; trivial.
      destruct h1 as (b & q & X1 & X2 & X3 & X4). exists b, q. rewrite Has by (intros ->; congruence). repeat split; trivial. intros [<-|I]; [congruence|contradiction].
    + constructor; trivial. intros I. specialize (a2 _ I). congruence.
    + intros b [<-|I]; [now rewrite Ha|]. rewrite Hin by trivial. auto.
    + intros b L. change (na s') with (S (na s)). destruct (Nat.eq_dec b a) as [->|N]; [split; [unfold a; lia|left; now left]|].
      rewrite Has in * by trivial. destruct (a3 b L) as (X1 & [X2|(j & q & X2 & X3 & X4)]); (split; [lia|]); [left; now right|right]. exists j, q. auto.
  - intros k [<-|I]; [cbn [kok]; rewrite Ha; cbn; eauto|].
    pose proof (F k (or_intror I)) as X. destruct k; try exact X; cbn [kok] in *; rewrite Hin; trivial; unfold araw; apply in_or_app; left; apply in_flat_map; (eexists; split; [exact I|now left]).
  - intros q I. pose proof (P q I) as X. destruct q; try exact X; cbn [pok] in *; rewrite Hin; trivial; unfold araw; apply in_or_app; right; apply in_flat_map; (eexists; split; [exact I|now left]).
Qed.

(** New data for a name resolution. *)
Lemma full_new_name K s g r lis : Full K s ->
  Full (JName (na s) g :: K) (set_na (S (na s)) (set_az (upd (az s) (na s) {| a_live := true; a_req := r; a_kind := AName lis |}) s)).
Proof.
  intros [C F P]. set (s' := set_na _ _). set (a := na s).
  assert (Ha : az s' a = {| a_live := true; a_req := r; a_kind := AName lis |}) by (unfold s', a; cbn [az set_na set_az]; apply upd_same).
  assert (Has : forall b, b <> a -> az s' b = az s b) by (intros b N; unfold s', a; cbn [az set_na set_az]; now apply upd_other).
  assert (La : a_live (az s a) = false) by (destruct (a_live (az s a)) eqn:E; trivial; destruct (a_l _ _ _ _ _ C a E); unfold a in *; lia).
  assert (Hin : forall b, In b (araw K s) -> az s' b = az s b). { intros b I. apply Has. intros ->. pose proof (a_ok _ _ _ _ _ C a I). congruence. }
  assert (Hst : forall b, In b (araw K s) -> stream s' b = stream s b) by (intros b I; unfold stream; now rewrite Hin).
  assert (Hrk : flat_map (raw_k s') K = flat_map (raw_k s) K).
  { rewrite !flat_map_concat_map. f_equal. apply map_ext_in. intros k I. destruct k; cbn; trivial. destruct ok; trivial. apply Hst. unfold araw. apply in_or_app. left. apply in_flat_map. eexists. split; [exact I|now left]. }
  assert (Hrp : flat_map (raw_p s') (pend s) = flat_map (raw_p s) (pend s)).
  { rewrite !flat_map_concat_map. f_equal. apply map_ext_in. intros k I. destruct k; cbn; trivial. apply Hst. unfold araw. apply in_or_app. right. apply in_flat_map. eexists. split; [exact I|now left]. }
  assert (HR' : raw (JName a g :: K) s' = raw K s) by (unfold raw; cbn [flat_map raw_k app]; change (pend s') with (pend s); now rewrite Hrk, Hrp).
  assert (HA' : araw (JName a g :: K) s' = a :: araw K s) by reflexivity.
  constructor.
  - rewrite HR', HA'. change (wraw (JName a g :: K) s') with (wraw K s). change (gone (JName a g :: K)) with (gone K).
    destruct C as [r1 r2 h1 h2 p1 p2 g1 g2 l1 a1 a2 a3 w1 w2 n1]. constructor; trivial.
    + intros j. specialize (h1 j). unfold hok in *. change (hs s' j) with (hs s j). destruct (h_st (hs s j)) as [|[]| |]; trivial.
      destruct h1 as (b & q & X1 & X2 & X3 & X4). exists b, q. rewrite Has by (intros ->; congruence). repeat split; trivial. intros [<-|I]; [congruence|contradiction].
    + constructor; trivial. intros I. specialize (a2 _ I). congruence.
    + intros b [<-|I]; [now rewrite Ha|]. rewrite Hin by trivial. auto.
    + intros b L. change (na s') with (S (na s)). destruct (Nat.eq_dec b a) as [->|N]; [split; [unfold a; lia|left; now left]|].
      rewrite Has in * by trivial. destruct (a3 b L) as (X1 & [X2|(j & q & X2 & X3 & X4)]); (split; [lia|]); [left; now right|right]. exists j, q. auto.
  - intros k [<-|I]; [cbn [kok]; rewrite Ha; cbn; eauto|].
    pose proof (F k I) as X. destruct k; try exact X; cbn [kok] in *; rewrite Hin; trivial; unfold araw; apply in_or_app; left; apply in_flat_map; (eexists; split; [exact I|now left]).
  - intros q I. pose proof (P q I) as X. destruct q; try exact X; cbn [pok] in *; rewrite Hin; trivial; unfold araw; apply in_or_app; right; apply in_flat_map; (eexists; split; [exact I|now left]).
Qed.

(** A request starts: what a continuation owned, it owns now. *)
Definition kont_of (p : pnd) (g : bool) : kont := match p with PConn a => JConn a false g | PDns a => JName a g | PWrite c => JWrit c g end.
Lemma full_req_start K s p g : Full (kont_of p g :: K) s -> Full K (req_start p s).
Proof.
  intros [C F P]. constructor.
  - destruct C as [r1 r2 h1 h2 p1 p2 g1 g2 l1 a1 a2 a3 w1 w2 n1].
    apply (core_perm (raw (kont_of p g :: K) s) (araw (kont_of p g :: K) s) (wraw (kont_of p g :: K) s) (gone (kont_of p g :: K))).
    + unfold raw. cbn [flat_map req_start set_pend pend]. rewrite <- app_assoc, Permutation_app_comm. rewrite <- app_assoc. apply Permutation_app_head. destruct p; cbn [kont_of raw_k]; apply Permutation_app_comm.
    + unfold araw. cbn [flat_map req_start set_pend pend]. rewrite <- app_assoc, Permutation_app_comm. rewrite <- app_assoc. apply Permutation_app_head. destruct p; cbn [kont_of as_k]; apply Permutation_app_comm.
    + unfold wraw. cbn [flat_map req_start set_pend pend]. rewrite <- app_assoc, Permutation_app_comm. rewrite <- app_assoc. apply Permutation_app_head. destruct p; cbn [kont_of wr_k]; apply Permutation_app_comm.
    + destruct p; reflexivity.
    + constructor; trivial. cbn. now rewrite n1.
  - intros k I. exact (F k (or_intror I)).
  - intros q [<-|I]; [|exact (P q I)]. pose proof (F _ (or_introl eq_refl)) as X. destruct p; try exact X; exact Logic.I.
Qed.
(** A request is completed. *)
Lemma full_req_end K s p g : Full K s -> In p (pend s) -> kok s (kont_of p g) ->
  exists s', req_end p s = Go s' /\ s' = set_pend (drop p (pend s)) (pred (reqs s)) s /\ Full (kont_of p g :: K) s'.
Proof.
  intros [C F P] I O. pose proof (drop_perm p _ I) as D. pose proof (n_req _ _ _ _ _ C) as N. rewrite (Permutation_length D) in N. cbn [length] in N.
  unfold req_end. rewrite N. cbn [Nat.eqb pred]. eexists. split; [reflexivity|]. split; [reflexivity|]. set (s' := set_pend _ _ _). constructor.
  - destruct C as [r1 r2 h1 h2 p1 p2 g1 g2 l1 a1 a2 a3 w1 w2 n1]. apply (core_perm (raw K s) (araw K s) (wraw K s) (gone K)).
    + unfold raw. cbn [flat_map]. rewrite (Permutation_app_comm (raw_k s' _)), <- app_assoc. apply Permutation_app_head. transitivity (flat_map (raw_p s) (p :: drop p (pend s))); [now apply Permutation_flat_map|].
      cbn [flat_map]. destruct p; reflexivity.
    + unfold araw. cbn [flat_map]. rewrite (Permutation_app_comm (as_k _)), <- app_assoc. apply Permutation_app_head. transitivity (flat_map as_p (p :: drop p (pend s))); [now apply Permutation_flat_map|].
      cbn [flat_map]. destruct p; reflexivity.
    + unfold wraw. cbn [flat_map]. rewrite (Permutation_app_comm (wr_k _)), <- app_assoc. apply Permutation_app_head. transitivity (flat_map wr_p (p :: drop p (pend s))); [now apply Permutation_flat_map|].
      cbn [flat_map]. destruct p; reflexivity.
    + destruct p; reflexivity.
    + constructor; trivial.
  - intros k [<-|J]; [exact O|exact (F k J)].
  - intros q J. apply P. now apply (drop_incl p).
Qed.

(** Data is deleted. *)
Lemma full_free_async k K s a : Full (k :: K) s -> as_k k = [a] -> raw_k s k = [] -> wr_k k = [] -> gone_k k = [] -> Full K (free_async a s).
Proof.
  intros [C F P] Ak Rk Wk Gk. set (s' := free_async a s).
  assert (Hk : forall b, a_kind (az s' b) = a_kind (az s b)) by (intros b; unfold s', free_async; cbn [az set_az]; unfold upd; destruct (Nat.eqb_spec b a); [now subst|reflexivity]).
  assert (Has : forall b, b <> a -> az s' b = az s b) by (intros b N; unfold s', free_async; cbn [az set_az]; now apply upd_other).
  assert (Ha : a_live (az s' a) = false) by (unfold s', free_async; cbn [az set_az]; now rewrite upd_same).
  assert (Hst : forall b, stream s' b = stream s b) by (intros b; unfold stream; now rewrite Hk).
  assert (HR : raw (k :: K) s = raw K s') by (unfold raw; cbn [flat_map]; rewrite Rk; cbn [app]; f_equal; rewrite !flat_map_concat_map; f_equal; apply map_ext_in; intros [] _; cbn; trivial; try destruct ok; now rewrite ?Hst).
  assert (HA : araw (k :: K) s = a :: araw K s') by (unfold araw; cbn [flat_map]; now rewrite Ak).
  assert (HW : wraw (k :: K) s = wraw K s') by (unfold wraw; cbn [flat_map]; now rewrite Wk).
  assert (HG : gone (k :: K) = gone K) by (unfold gone; cbn [flat_map]; now rewrite Gk).
  rewrite HR, HA, HW, HG in C. constructor.
  - destruct C as [r1 r2 h1 h2 p1 p2 g1 g2 l1 a1 a2 a3 w1 w2 n1]. inversion a1 as [|x y Ax Ay]; subst x y. constructor; trivial.
    + intros j. specialize (h1 j). unfold hok in *. change (hs s' j) with (hs s j). destruct (h_st (hs s j)) as [|[]| |]; trivial.
      destruct h1 as (b & q & X1 & X2 & X3 & X4). exists b, q. assert (b <> a) by (intros ->; apply X4; now left). rewrite Has by trivial. repeat split; trivial. intros I. apply X4. now right.
    + intros b I. rewrite Has by (intros ->; contradiction). apply a2. now right.
    + intros b L. assert (b <> a) by (intros ->; congruence). rewrite Has in * by trivial. destruct (a3 b L) as (X1 & [[X2|X2]|X2]); (split; [exact X1|]); [congruence|now left|now right].
  - intros q I. apply (kok_keep s); trivial; auto. apply F. now right.
  - intros q I. specialize (P q I). destruct q; cbn [pok] in *; trivial; now rewrite Hk.
Qed.

(** The record of one connection changes, not where it is kept. *)
Lemma full_con K0 K s c x : Full K0 s -> k_live (cs s c) = true -> k_live x = true -> k_h x = k_h (cs s c) -> k_fd x = k_fd (cs s c) -> k_cl x = k_cl (cs s c) ->
  (k_cl x = false -> k_st x = Connected \/ k_st x = Disconnecting /\ k_wr x = true) -> (k_cl x = true -> k_st x = k_st (cs s c)) ->
  let s' := set_cs (upd (cs s) c x) s in
  raw K s = raw K0 s -> araw K s = araw K0 s -> gone K = gone K0 -> NoDup (wraw K s) -> (forall d, In d (wraw K s) <-> k_live (cs s' d) = true /\ k_wr (cs s' d) = true) ->
  (forall k, In k K -> kok s' k) -> Full K s'.
Proof.
  intros [C F P] L Lx Hx Fx Cx Px Gx s' HR HA HG ND HW HK.
  assert (Hc : cs s' c = x) by apply upd_same.
  assert (Hcs : forall d, d <> c -> cs s' d = cs s d) by (intros d N; now apply upd_other).
  assert (Hkh : forall d, k_h (cs s' d) = k_h (cs s d)) by (intros d; destruct (Nat.eq_dec d c) as [->|N]; [now rewrite Hc|now rewrite Hcs]).
  assert (Hfd : forall d, k_fd (cs s' d) = k_fd (cs s d)) by (intros d; destruct (Nat.eq_dec d c) as [->|N]; [now rewrite Hc|now rewrite Hcs]).
  assert (Hlv : forall d, k_live (cs s' d) = k_live (cs s d)) by (intros d; destruct (Nat.eq_dec d c) as [->|N]; [rewrite Hc; congruence|now rewrite Hcs]).
  assert (Hcl : forall d, k_cl (cs s' d) = k_cl (cs s d)) by (intros d; destruct (Nat.eq_dec d c) as [->|N]; [now rewrite Hc|now rewrite Hcs]).
  constructor; [|exact HK|exact P].
  change (raw K s') with (raw K s). change (araw K s') with (araw K s). change (wraw K s') with (wraw K s). rewrite HR, HA, HG.
  destruct C as [r1 r2 h1 h2 p1 p2 g1 g2 l1 a1 a2 a3 w1 w2 n1].
  assert (Hst : forall d, k_cl (cs s d) = true -> k_st (cs s' d) = k_st (cs s d)).
  { intros d D. destruct (Nat.eq_dec d c) as [->|N]; [rewrite Hc; apply Gx; congruence|now rewrite Hcs]. }
  constructor; trivial.
  - intros j. specialize (h1 j). unfold hok in *. change (hs s' j) with (hs s j). destruct (h_st (hs s j)) as [|[]| |]; trivial.
    + destruct h1 as [H|(d & X1 & X2 & X3)]; [now left|right]. exists d. rewrite Hkh, Hfd. auto.
    + destruct h1 as (d & X1 & X2 & X3 & X4). exists d. destruct (g2 _ _ X2) as (_ & _ & Y & _). rewrite Hkh, Hst by trivial. auto.
    + destruct h1 as (d & X1 & X2 & X3). exists d. rewrite Hkh. auto.
  - intros f d I. destruct (p2 f d I) as (X1 & X2 & X3 & X4 & X5 & X6 & X7). rewrite Hlv, Hfd, Hkh, Hcl. repeat split; trivial.
    destruct (Nat.eq_dec d c) as [->|N]; [rewrite Hc; apply Px; congruence|now rewrite Hcs].
  - intros p d I. destruct (g2 p d I) as (X1 & X2 & X3 & X4 & X5). rewrite Hlv, Hkh, Hcl, Hst by trivial. repeat split; trivial.
  - intros d I. rewrite Hlv in I. rewrite Hfd. apply l1. trivial.
Qed.

(** A connection of the pool starts to close. *)
Definition shut_result c s : st :=
  on_h (k_h (cs s c)) (h_state (HClosing CConn)) (set_pool (filter (fun e => negb (fst e =? k_fd (cs s c))%N) (pool s)) (set_gc ((c, c) :: gc s) s)).
Lemma full_shut K0 K s c x : Full K0 s -> In (k_fd (cs s c), c) (pool s) -> k_live x = true -> k_h x = k_h (cs s c) -> k_fd x = k_fd (cs s c) -> k_cl x = true -> k_st x = Disconnecting ->
  let s1 := set_cs (upd (cs s) c x) s in
  raw K s = raw K0 s -> araw K s = araw K0 s -> gone K = gone K0 -> NoDup (wraw K s) -> (forall d, In d (wraw K s) <-> k_live (cs s1 d) = true /\ k_wr (cs s1 d) = true) ->
  (forall k, In k K -> kok s1 k) ->
  shut_conn false c s1 = Go (shut_result c s1) /\ Full K (shut_result c s1) /\ incl (pool (shut_result c s1)) (pool s).
Proof.
  intros [C F P] Ip Lx Hx Fx Cx Sx s1 HR HA HG ND HW HK. pose proof (find_pool_in _ _ _ _ _ _ _ C Ip) as Fp.
  destruct (p_c _ _ _ _ _ C _ _ Ip) as (B1 & B2 & B3 & B4 & B5 & B6 & B7).
  assert (Gc : forall p d, In (p, d) (gc s) -> p <> c /\ d <> c). { intros p d I. destruct (g_c _ _ _ _ _ C p d I) as (-> & _ & X & _). split; intros ->; congruence. }
  assert (Fg : filter (fun e => negb (fst e =? c)) (gc s) = gc s).
  { clear - Gc. induction (gc s) as [|[p d] l IH]; trivial. cbn [filter fst]. destruct (Gc p d (or_introl eq_refl)) as [X _]. apply Nat.eqb_neq in X. rewrite X. cbn. now rewrite IH by (intros; apply Gc; now right). }
  assert (Hc : cs s1 c = x) by apply upd_same.
  unfold shut_conn. rewrite Hc, Hx, Fx. change (hs s1) with (hs s). rewrite B4. change (find_pool (k_fd (cs s c)) s1) with (find_pool (k_fd (cs s c)) s). rewrite Fp, Nat.eqb_refl.
  unfold uv_close, is_open. cbn [hs set_pool set_gc]. change (hs s1) with (hs s). rewrite B3. unfold shut_result. rewrite Hc, Hx, Fx.
  change (gc s1) with (gc s). change (pool s1) with (pool s). rewrite Fg. split; [reflexivity|]. set (f := k_fd (cs s c)) in *. set (h := k_h (cs s c)) in *.
  set (pl := filter (fun e => negb (fst e =? f)%N) (pool s)). set (s' := on_h _ _ _).
  assert (Pl : forall d e, In (d, e) pl <-> In (d, e) (pool s) /\ e <> c).
  { intros d e. unfold pl. rewrite filter_In. cbn [fst]. split; intros (X & Y); split; trivial.
    - intros ->. destruct (p_c _ _ _ _ _ C _ _ X) as (_ & Z & _). fold f in Z. subst d. now rewrite N.eqb_refl in Y.
    - destruct (N.eqb_spec d f) as [->|]; trivial. destruct Y. pose proof (find_pool_in _ _ _ _ _ _ _ C X) as Z. rewrite Fp in Z. now injection Z. }
  split.
  - assert (Hh : h_st (hs s' h) = HClosing CConn /\ h_data (hs s' h) = DConn c) by (subst s'; unfold on_h; cbn [hs set_hs set_pool set_gc]; rewrite !upd_same; split; [reflexivity|exact B4]).
    assert (Hs : forall j, j <> h -> hs s' j = hs s j) by (intros j N; subst s'; unfold on_h; cbn [hs set_hs set_pool set_gc]; now rewrite !upd_other).
    change (cs s' c) with (cs s1 c) in *.
    assert (Hcs : forall d, d <> c -> cs s' d = cs s d) by (intros d N; now apply upd_other).
    assert (Hc' : cs s' c = x) by exact Hc.
    constructor.
    + change (raw K s') with (raw K s). change (araw K s') with (araw K s). change (wraw K s') with (wraw K s). rewrite HR, HA, HG.
      destruct C as [r1 r2 h1 h2 p1 p2 g1 g2 l1 a1 a2 a3 w1 w2 n1]. constructor; trivial.
      * intros j I. destruct (r2 j I) as (X1 & X2 & X3 & X4). rewrite Hs by (intros ->; congruence). auto.
      * intros j. unfold hok. destruct (Nat.eq_dec j h) as [->|N].
        -- destruct Hh as [-> ->]. exists c. rewrite Hc'. repeat split; trivial. now left.
        -- rewrite Hs by trivial. specialize (h1 j). unfold hok in h1. destruct (h_st (hs s j)) as [|[]| |]; trivial.
           ++ destruct h1 as [H|(d & X1 & X2 & X3)]; [now left|right]. assert (d <> c) by (intros ->; unfold h in N; congruence). exists d. rewrite Hcs by trivial. repeat split; trivial. change (pool s') with pl. now apply Pl.
           ++ destruct h1 as (d & X1 & X2 & X3). destruct (Gc _ _ X2) as (_ & Y). exists d. rewrite Hcs by trivial. repeat split; [trivial|now right|tauto|tauto].
           ++ destruct h1 as (d & X1 & X2 & X3). exists d. assert (d <> c) by (intros ->; unfold h in N; congruence). rewrite Hcs by trivial. auto.
      * intros j Lj. rewrite Hs; [now apply h2|]. intros ->. rewrite (h2 h) in B3 by trivial. discriminate.
      * now apply nodup_filter.
      * intros d e I. apply Pl in I. destruct I as [I N]. destruct (p2 d e I) as (X1 & X2 & X3 & X4 & X5 & X6 & X7). rewrite Hcs by trivial. assert (k_h (cs s e) <> h) by (intros E; rewrite E in X4; congruence). rewrite !Hs by trivial. repeat split; trivial.
      * cbn. constructor; trivial. intros I. apply in_map_iff in I. destruct I as ([p d] & E & I). cbn in E. subst p. destruct (Gc _ _ I). congruence.
      * intros p d [E|I].
        -- injection E as <- <-. rewrite Hc', Hx. destruct Hh as [-> ->]. repeat split; trivial. left. auto.
        -- destruct (Gc _ _ I) as [_ N]. destruct (g2 p d I) as (X1 & X2 & X3 & X4 & X5). rewrite Hcs by trivial. assert (k_h (cs s d) <> h) by (intros E; rewrite E in X4; congruence). rewrite !Hs by trivial. repeat split; trivial.
      * intros d Ld. destruct (Nat.eq_dec d c) as [->|N]; [split; [now apply l1|right; now left]|]. rewrite Hcs in * by trivial. destruct (l1 d Ld) as (X1 & [X2|X2]); (split; [exact X1|]); [left; now apply Pl|right; now right].
      * intros b Lb. destruct (a3 b Lb) as (X1 & [X2|(j & q & X2 & X3 & X4)]); split; trivial; [now left|]. right. exists j, q. rewrite !Hs by (intros E; rewrite E in X4; congruence). auto.
    + intros k I. specialize (HK k I). destruct k; try exact HK; cbn [kok] in *; destruct HK as (X1 & X2); (split; [now right|exact X2]).
    + exact P.
  - intros [d e] I. now apply Pl in I.
Qed.

Definition step_st (t : status) : status := match t with Connected => Disconnecting | t => t end.
Lemma kok_con s c x k : k_live x = true -> k_st x = k_st (cs s c) \/ k_st x = step_st (k_st (cs s c)) -> (k_cl (cs s c) = true -> k_cl x = true) -> k_wr x = k_wr (cs s c) ->
  kok s k -> kok (set_cs (upd (cs s) c x) s) k.
Proof.
  intros L S Cl W.
  assert (Hl : forall d, k_live (cs s d) = true -> k_live (upd (cs s) c x d) = true) by (intros d H; unfold upd; destruct (d =? c); trivial).
  assert (Hw : forall d, k_wr (upd (cs s) c x d) = k_wr (cs s d)) by (intros d; unfold upd; destruct (Nat.eqb_spec d c); congruence).
  assert (Hc : forall d, k_cl (cs s d) = true -> k_cl (upd (cs s) c x d) = true) by (intros d H; unfold upd; destruct (Nat.eqb_spec d c); subst; auto).
  assert (Hd : forall d, k_st (cs s d) = Disconnected -> k_st (upd (cs s) c x d) = Disconnected) by (intros d H; unfold upd; destruct (Nat.eqb_spec d c); subst; trivial; rewrite H in S; destruct S as [-> | ->]; reflexivity).
  assert (Hn : forall d, k_st (cs s d) <> Disconnected -> k_st (upd (cs s) c x d) <> Disconnected) by (intros d H; unfold upd; destruct (Nat.eqb_spec d c); subst; trivial; destruct S as [-> | ->]; trivial; destruct (k_st (cs s c)); cbn; congruence).
  assert (Hg : forall d, k_st (cs s d) = Disconnecting -> k_st (upd (cs s) c x d) = Disconnecting) by (intros d H; unfold upd; destruct (Nat.eqb_spec d c); subst; trivial; rewrite H in S; destruct S as [-> | ->]; reflexivity).
  destruct k; cbn [kok cs set_cs gc az gv]; trivial; intros Q; repeat match goal with H : _ /\ _ |- _ => destruct H end; repeat apply conj; auto; now rewrite ?Hw.
Qed.

Record frameq (s s' : st) : Prop := {
  q_nh : nh s' = nh s; q_nc : nc s' = nc s; q_az : az s' = az s; q_na : na s' = na s; q_nr : nr s' = nr s; q_pend : pend s' = pend s; q_reqs : reqs s' = reqs s;
  q_cl : cl s' = cl s; q_cb : cb s' = cb s; q_ow : ow s' = ow s; q_lp : lp s' = lp s; q_stk : stk s' = stk s }.

Lemma in_wraw_con K s c x : k_live x = k_live (cs s c) -> k_wr x = k_wr (cs s c) -> (forall d, In d (wraw K s) <-> k_live (cs s d) = true /\ k_wr (cs s d) = true) ->
  forall d, In d (wraw K s) <-> k_live (upd (cs s) c x d) = true /\ k_wr (upd (cs s) c x d) = true.
Proof. intros L W H d. rewrite H. unfold upd. destruct (Nat.eqb_spec d c); [subst; now rewrite L, W|reflexivity]. Qed.

Lemma on_c_on_c c f g s : forall d, cs (on_c c f (on_c c g s)) d = upd (cs s) c (f (g (cs s c))) d.
Proof. intros d. cbn [on_c cs set_cs]. unfold upd. rewrite Nat.eqb_refl. destruct (d =? c); reflexivity. Qed.

Lemma full_same_cs K s t : (forall c, cs t c = cs s c) -> hs t = hs s -> nh t = nh s -> nc t = nc s -> az t = az s -> na t = na s -> pool t = pool s -> gc t = gc s -> gv t = gv s -> pend t = pend s -> reqs t = reqs s ->
  Full K s -> Full K t.
Proof.
  destruct s, t. cbn. intros Ec -> -> -> -> -> -> -> -> -> -> [C F P]. constructor; [|intros k I; specialize (F k I); destruct k; cbn in *; rewrite ?Ec; exact F|exact P].
  destruct C as [r1 r2 h1 h2 p1 p2 g1 g2 l1 a1 a2 a3 w1 w2 n1]. cbn in *. constructor; cbn; trivial.
  - intros h. specialize (h1 h). unfold hok in *. cbn in *. destruct (h_st _) as [|[]| |]; trivial.
    + destruct h1 as [H|(c & H)]; [now left|right]. exists c. now rewrite !Ec.
    + destruct h1 as (c & H). exists c. now rewrite !Ec.
    + destruct h1 as (c & H). exists c. now rewrite !Ec.
  - intros f c I. rewrite !Ec. now apply p2.
  - intros p c I. rewrite !Ec. now apply g2.
  - intros c. rewrite !Ec. apply l1.
  - intros c. rewrite !Ec. apply w2.
Qed.

Lemma pool_or_gc K s c : Full K s -> k_live (cs s c) = true -> k_cl (cs s c) = false -> In (k_fd (cs s c), c) (pool s).
Proof. intros [C _ _] L N. destruct (l_c _ _ _ _ _ C c L) as (_ & [H|H]); trivial. destruct (g_c _ _ _ _ _ C _ _ H) as (_ & _ & X & _). congruence. Qed.
Lemma cl_gc K s c : Full K s -> k_live (cs s c) = true -> k_cl (cs s c) = true -> In (c, c) (gc s).
Proof. intros [C _ _] L N. destruct (l_c _ _ _ _ _ C c L) as (_ & [H|H]); trivial. destruct (p_c _ _ _ _ _ C _ _ H) as (_ & _ & _ & _ & _ & X & _). congruence. Qed.
Lemma connected_open K s c : Full K s -> k_live (cs s c) = true -> k_st (cs s c) = Connected -> k_cl (cs s c) = false.
Proof.
  intros F L S. destruct (k_cl (cs s c)) eqn:E; trivial. pose proof (cl_gc _ _ _ F L E) as H. destruct F as [C _ _]. destruct (g_c _ _ _ _ _ C _ _ H) as (_ & _ & _ & _ & [[X _]|[X _]]); congruence.
Qed.

Record asked (s s' : st) (c : nat) (d : option N) : Prop := {
  k_frame : frameq s s'; k_log : log s' = log s ++ [NAsk c d]; k_others : forall e, e <> c -> cs s' e = cs s e;
  k_live' : k_live (cs s' c) = true; k_disc' : k_disc (cs s' c) = d; k_st' : k_st (cs s' c) = step_st (k_st (cs s c)); k_wr' : k_wr (cs s' c) = k_wr (cs s c);
  k_q' : k_q (cs s' c) = k_q (cs s c); k_fly' : k_fly (cs s' c) = k_fly (cs s c); k_h' : k_h (cs s' c) = k_h (cs s c); k_own' : forall h, h_own (hs s' h) = h_own (hs s h);
  k_hold' : forall h, hold (hs s' h) = true -> hold (hs s h) = true; k_pool' : incl (pool s') (pool s); k_gc' : gc s' = gc s \/ gc s' = (c, c) :: gc s /\ k_st (cs s c) = Connected }.

(** [shut_conn] after several changes of the record. *)
Lemma full_shut2 K0 K s c x s1 : Full K0 s -> In (k_fd (cs s c), c) (pool s) -> k_live x = true -> k_h x = k_h (cs s c) -> k_fd x = k_fd (cs s c) -> k_cl x = true -> k_st x = Disconnecting ->
  (forall e, cs s1 e = upd (cs s) c x e) -> hs s1 = hs s -> nh s1 = nh s -> nc s1 = nc s -> az s1 = az s -> na s1 = na s -> pool s1 = pool s -> gc s1 = gc s -> gv s1 = gv s -> pend s1 = pend s -> reqs s1 = reqs s ->
  raw K s = raw K0 s -> araw K s = araw K0 s -> gone K = gone K0 -> NoDup (wraw K s) -> (forall d, In d (wraw K s) <-> k_live (cs s1 d) = true /\ k_wr (cs s1 d) = true) ->
  (forall k, In k K -> kok (set_cs (upd (cs s) c x) s) k) ->
  shut_conn false c s1 = Go (shut_result c s1) /\ Full K (shut_result c s1) /\ incl (pool (shut_result c s1)) (pool s).
Proof.
  intros HF IP Lx Hx Fx Cx Sx Ec E1 E2 E3 E4 E5 E6 E7 E8 E9 E10 HR HA HG ND HW HK. set (s0 := set_cs (upd (cs s) c x) s).
  destruct (full_shut K0 K s c x HF IP Lx Hx Fx Cx Sx HR HA HG ND) as (X1 & X2 & X3); trivial; [intros d; rewrite HW, Ec; reflexivity|].
  fold s0 in X1, X2, X3.
  assert (Q : cs s1 c = cs s0 c) by apply Ec.
  split; [|split].
  - unfold shut_conn, find_pool in *. rewrite Q, E1, E7, E6. change (hs s0) with (hs s) in X1. change (pool s0) with (pool s) in X1. change (gc s0) with (gc s) in X1.
    destruct (h_data _); try discriminate. destruct (option_map _ _); try discriminate. destruct (_ =? c); try discriminate. unfold uv_close in *.
    cbn [hs set_pool set_gc] in X1 |- *. change (hs s0) with (hs s) in X1. rewrite E1. destruct (is_open _); try discriminate. f_equal. unfold shut_result.
    apply (f_equal (fun r => match r with Go s => gc s | _ => [] end)) in X1. cbn [gc on_h set_hs set_pool set_gc shut_result] in X1. change (gc s0) with (gc s) in X1. rewrite Q, X1, E7. cbn [pool set_gc]. rewrite ?E6. reflexivity.
  - apply (full_same_cs K (shut_result c s0)); trivial; unfold shut_result; rewrite ?Q; cbn; trivial; try congruence. 
  - unfold shut_result in *. rewrite Q. cbn in *. now rewrite E6.
Qed.

Lemma full_disc K s c d force : Full K s -> k_live (cs s c) = true -> exists s', disc_inner false c d force s = Go s' /\ Full K s' /\ asked s s' c d.
Proof.
  intros HF L. pose proof HF as [C F P]. unfold disc_inner. set (s1 := emit (NAsk c d) (on_c c (c_disc d) s)).
  assert (E1 : cs s1 c = c_disc d (cs s c)) by (unfold s1; cbn; apply upd_same). rewrite E1. cbn [k_st c_disc].
  assert (Hcs1 : forall e, cs s1 e = upd (cs s) c (c_disc d (cs s c)) e) by reflexivity.
  assert (W1 : NoDup (wraw K s)) by apply (w_nd _ _ _ _ _ C).
  pose proof (w_c _ _ _ _ _ C) as W2.
  assert (FW : forall x, k_live x = true -> k_wr x = k_wr (cs s c) -> forall e, In e (wraw K s) <-> k_live (upd (cs s) c x e) = true /\ k_wr (upd (cs s) c x e) = true) by (intros x X1 X2; apply in_wraw_con; congruence || trivial).
  assert (Plain : k_st (cs s c) <> Connected -> Full K s1 /\ asked s s1 c d).
  { intros S. split.
    - apply (full_same_cs K (set_cs (upd (cs s) c (c_disc d (cs s c))) s)); try reflexivity.
      apply (full_con K); try reflexivity; trivial; cbn [k_cl k_st c_disc k_wr]; [|apply FW; trivial|].
      + intros X. pose proof (pool_or_gc _ _ _ HF L X) as IP. destruct (p_c _ _ _ _ _ C _ _ IP) as (_ & _ & _ & _ & _ & _ & Y). exact Y.
      + intros k I. apply kok_con; cbn; auto.
    - constructor; try (rewrite E1; cbn; trivial; fail); try reflexivity; [constructor; reflexivity|intros e N; rewrite Hcs1; now apply upd_other|rewrite E1; cbn; destruct (k_st (cs s c)) eqn:T; trivial; congruence|intros e I; exact I|intros e I; exact I|now left]. }
  destruct (k_st (cs s c)) eqn:S; cbn [st_eqb negb]; [|exists s1; split; [reflexivity|apply Plain; discriminate]|exists s1; split; [reflexivity|apply Plain; discriminate]].
  clear Plain. pose proof (connected_open _ _ _ HF L S) as NC. pose proof (pool_or_gc _ _ _ HF L NC) as IP.
  set (s2 := on_c c (c_st Disconnecting) s1).
  assert (E2 : cs s2 c = c_st Disconnecting (c_disc d (cs s c))) by (unfold s2; cbn; rewrite !upd_same; reflexivity).
  assert (Hcs : forall e, cs s2 e = upd (cs s) c (c_st Disconnecting (c_disc d (cs s c))) e) by (intros e; unfold s2, s1; cbn; unfold upd; rewrite Nat.eqb_refl; now destruct (e =? c)).
  rewrite E2. cbn [k_wr c_st c_disc].
  destruct (negb force && k_wr (cs s c)) eqn:B.
  - apply andb_true_iff in B. destruct B as [_ B]. exists s2. split; [reflexivity|]. split.
    + apply (full_same_cs K (set_cs (upd (cs s) c (c_st Disconnecting (c_disc d (cs s c)))) s)); try reflexivity; [exact Hcs|].
      apply (full_con K); try reflexivity; trivial; cbn [k_cl k_st c_st c_disc k_wr]; [auto|congruence|apply FW; trivial|]. intros k I. apply kok_con; cbn; auto. right. now rewrite S.
    + constructor; try (rewrite E2; cbn; rewrite ?S; trivial; fail); try reflexivity; [constructor; reflexivity|intros e N; rewrite Hcs; now apply upd_other|intros e I; exact I|intros e I; exact I|now left].
  - unfold disc_run. rewrite E2. cbn [k_cl c_st c_disc]. rewrite NC. set (x := c_closing (c_st Disconnecting (c_disc d (cs s c)))).
    set (s3 := on_c c c_closing s2). assert (Hcs3 : forall e, cs s3 e = upd (cs s) c x e) by (intros e; unfold s3; cbn [on_c cs set_cs]; unfold upd at 1; rewrite E2; destruct (Nat.eqb_spec e c); [subst; now rewrite upd_same|rewrite Hcs, !upd_other by trivial; reflexivity]).
    assert (Et : cs s3 c = x) by (rewrite Hcs3; apply upd_same).
    destruct (full_shut2 K K s c x s3 HF IP) as (X1 & X2 & X3); try reflexivity; trivial; [intros e; rewrite Hcs3; apply FW; trivial|intros k I; apply kok_con; cbn; auto; right; now rewrite S|].
    exists (shut_result c s3). split; [exact X1|]. split; [exact X2|]. change (cs (shut_result c s3)) with (cs s3).
    constructor; try (change (cs (shut_result c s3)) with (cs s3); rewrite Et; cbn; rewrite ?S; trivial; fail); try reflexivity.
    + constructor; reflexivity.
    + intros e N. change (cs (shut_result c s3)) with (cs s3). rewrite Hcs3. now apply upd_other.
    + intros h. unfold shut_result. rewrite Et. cbn [hs on_h set_hs set_pool set_gc]. change (hs s3) with (hs s). unfold upd. destruct (Nat.eqb_spec h (k_h x)) as [->|]; reflexivity.
    + intros h. unfold shut_result. rewrite Et. cbn [hs on_h set_hs set_pool set_gc]. change (hs s3) with (hs s). unfold upd. destruct (Nat.eqb_spec h (k_h x)) as [->|]; trivial. intros _.
      destruct (p_c _ _ _ _ _ C _ _ IP) as (_ & _ & Y & _). unfold hold. change (k_h x) with (k_h (cs s c)). now rewrite Y.
    + exact X3.
    + right. split; trivial.
Qed.

(** * Close callbacks *)
Definition quiet (K : list kont) : Prop := forall k, In k K -> exists r, k = JRet r.
Lemma quiet_wr K s : quiet K -> wraw K s = flat_map wr_p (pend s).
Proof. intros Q. unfold wraw. replace (flat_map wr_k K) with (@nil nat); trivial. symmetry. induction K as [|k K IH]; trivial. destruct (Q k (or_introl eq_refl)) as (r & ->). cbn. apply IH. intros j I. apply Q. now right. Qed.
Lemma quiet_gone K : quiet K -> gone K = [].
Proof. intros Q. induction K as [|k K IH]; trivial. destruct (Q k (or_introl eq_refl)) as (r & ->). cbn. apply IH. intros j I. apply Q. now right. Qed.

Lemma full_closed_ptr K s h : Full K s -> h_st (hs s h) = HClosing CPtr -> exists v, on_closed h CPtr s = Go (set_hs v s) /\ Full K (set_hs v s) /\ (forall j, j <> h -> v j = hs s j) /\ h_st (v h) = HFreed.
Proof.
  intros [C F P] Hc. pose proof (h_ok _ _ _ _ _ C h) as D. unfold hok in D. rewrite Hc in D.
  unfold on_closed. cbn [hs on_h set_hs]. rewrite upd_same. cbn [h_data h_state]. rewrite D. unfold free_handle. cbn [hs on_h set_hs]. rewrite upd_same. cbn [h_st h_state]. pose (v := hs (on_h h (h_state HFreed) (on_h h (h_state HClosed) s))).
  exists v. assert (Hh : h_st (v h) = HFreed) by (unfold v; cbn [hs on_h set_hs]; rewrite !upd_same; reflexivity). assert (Hs : forall j, j <> h -> v j = hs s j) by (intros j N; unfold v; cbn [hs on_h set_hs]; now rewrite !upd_other).
  split; [reflexivity|]. split; [|now split]. set (s' := set_hs v s). constructor; [|exact F|exact P].
  change (raw K s') with (raw K s). change (araw K s') with (araw K s). change (wraw K s') with (wraw K s).
  destruct C as [r1 r2 h1 h2 p1 p2 g1 g2 l1 a1 a2 a3 w1 w2 n1]. constructor; trivial.
  - intros j I. destruct (r2 j I) as (X1 & X2 & X3 & X4). change (hs s' j) with (v j). rewrite Hs by (intros ->; congruence). auto.
  - intros j. unfold hok. change (hs s' j) with (v j). destruct (Nat.eq_dec j h) as [->|N]; [now rewrite Hh|]. rewrite Hs by trivial. exact (h1 j).
  - intros j Lj. change (hs s' j) with (v j). destruct (Nat.eq_dec j h) as [->|N]; [exact Hh|]. rewrite Hs by trivial. now apply h2.
  - intros f c I. destruct (p2 f c I) as (X1 & X2 & X3 & X4 & X5 & X6 & X7). change (cs s') with (cs s). change (hs s') with v. rewrite !Hs by (intros E; rewrite E in X4; congruence). repeat split; trivial.
  - intros q c I. destruct (g2 q c I) as (X1 & X2 & X3 & X4 & X5). change (cs s') with (cs s). change (hs s') with v. rewrite !Hs by (intros E; rewrite E in X4; congruence). repeat split; trivial.
  - intros b L. destruct (a3 b L) as (X1 & [X2|(j & q & X2 & X3 & X4)]); split; trivial; [now left|right]. exists j, q. change (hs s') with v. rewrite !Hs by (intros E; rewrite E in X4; congruence). auto.
Qed.

Lemma full_closed_async K s h : Full K s -> h_st (hs s h) = HClosing CAsync -> exists v a, on_closed h CAsync s = Go (set_hs v (free_async a s)) /\ Full K (set_hs v (free_async a s)) /\
  (forall j, j <> h -> v j = hs s j) /\ h_st (v h) = HFreed /\ ~ In a (araw K s).
Proof.
  intros [C F P] Hc. pose proof (h_ok _ _ _ _ _ C h) as D. unfold hok in D. rewrite Hc in D. destruct D as (a & p & D1 & D2 & D3 & D4).
  unfold on_closed. cbn [hs on_h set_hs]. rewrite upd_same. cbn [h_data h_state]. rewrite D1. cbn [az set_hs on_h]. rewrite D3, D2, Nat.eqb_refl. cbn [negb].
  unfold free_handle. cbn [hs on_h set_hs free_async set_az]. rewrite upd_same. cbn [h_st h_state]. pose (v := hs (on_h h (h_state HFreed) (on_h h (h_state HClosed) s))).
  exists v, a. assert (Hh : h_st (v h) = HFreed) by (unfold v; cbn [hs on_h set_hs]; rewrite !upd_same; reflexivity). assert (Hs : forall j, j <> h -> v j = hs s j) by (intros j N; unfold v; cbn [hs on_h set_hs]; now rewrite !upd_other).
  split; [reflexivity|]. split; [|now repeat split]. set (s' := set_hs v (free_async a s)).
  assert (Hk : forall b, a_kind (az s' b) = a_kind (az s b)) by (intros b; unfold s', free_async; cbn [az set_az set_hs]; unfold upd; destruct (Nat.eqb_spec b a); [now subst|reflexivity]).
  assert (Has : forall b, b <> a -> az s' b = az s b) by (intros b N; unfold s', free_async; cbn [az set_az set_hs]; now apply upd_other).
  assert (Ha : a_live (az s' a) = false) by (unfold s', free_async; cbn [az set_az set_hs]; now rewrite upd_same).
  assert (Hst : forall b, stream s' b = stream s b) by (intros b; unfold stream; now rewrite Hk).
  assert (HR : raw K s' = raw K s) by (unfold raw; f_equal; rewrite !flat_map_concat_map; f_equal; apply map_ext_in; intros [] _; cbn; trivial; try destruct ok; now rewrite ?Hst).
  constructor.
  - rewrite HR. change (araw K s') with (araw K s). change (wraw K s') with (wraw K s).
    destruct C as [r1 r2 h1 h2 p1 p2 g1 g2 l1 a1 a2 a3 w1 w2 n1]. constructor; trivial.
    + intros j I. destruct (r2 j I) as (X1 & X2 & X3 & X4). change (hs s' j) with (v j). rewrite Hs by (intros ->; congruence). auto.
    + intros j. unfold hok. change (hs s' j) with (v j). destruct (Nat.eq_dec j h) as [->|N]; [now rewrite Hh|]. rewrite Hs by trivial. specialize (h1 j). unfold hok in h1. destruct (h_st (hs s j)) as [|[]| |]; trivial.
      destruct h1 as (b & q & X1 & X2 & X3 & X4). exists b, q. assert (b <> a) by (intros ->; congruence). rewrite Has by trivial. auto.
    + intros j Lj. change (hs s' j) with (v j). destruct (Nat.eq_dec j h) as [->|N]; [exact Hh|]. rewrite Hs by trivial. now apply h2.
    + intros f c I. destruct (p2 f c I) as (X1 & X2 & X3 & X4 & X5 & X6 & X7). change (cs s') with (cs s). change (hs s') with v. rewrite !Hs by (intros E; rewrite E in X4; congruence). repeat split; trivial.
    + intros q c I. destruct (g2 q c I) as (X1 & X2 & X3 & X4 & X5). change (cs s') with (cs s). change (hs s') with v. rewrite !Hs by (intros E; rewrite E in X4; congruence). repeat split; trivial.
    + intros b I. rewrite Has by (intros ->; contradiction). auto.
    + intros b L. assert (b <> a) by (intros ->; congruence). rewrite Has in * by trivial. destruct (a3 b L) as (X1 & [X2|(j & q & X2 & X3 & X4)]); split; trivial; [now left|right]. exists j, q. change (hs s') with v. rewrite !Hs by (intros E; rewrite E in X4; congruence). auto.
  - intros k I. apply (kok_keep s); trivial; auto.
  - intros q I. specialize (P q I). destruct q; cbn [pok] in *; trivial; now rewrite Hk.
Qed.

Lemma full_closed_conn K s h g : Full K s -> quiet K -> h_st (hs s h) = HClosing CConn -> flushed h s = true ->
  exists c, h_data (hs s h) = DConn c /\ k_live (cs s c) = true /\ k_st (cs s c) = Disconnecting /\ k_h (cs s c) = h /\ find_gc c s = Some c /\
    Full (JGone c (gv s) g :: K) (on_c c (c_st Disconnected) (on_h h (h_state HClosed) s)).
Proof.
  intros HF Q Hc Fl. pose proof HF as [C F P]. pose proof (h_ok _ _ _ _ _ C h) as D. unfold hok in D. rewrite Hc in D. destruct D as (c & D1 & D2 & D3 & D4).
  destruct (g_c _ _ _ _ _ C _ _ D2) as (_ & L & Cl & Dh & _). exists c. do 4 (split; [solve [trivial]|]). split; [now apply (find_gc_in _ _ _ _ _ _ C)|].
  assert (NW : k_wr (cs s c) = false).
  { destruct (k_wr (cs s c)) eqn:E; trivial. pose proof (proj2 (w_c _ _ _ _ _ C c) (conj L E)) as I. rewrite quiet_wr in I by trivial. apply in_flat_map in I. destruct I as (p & I1 & I2). destruct p; cbn in I2; try contradiction. destruct I2 as [->|[]].
    unfold flushed in Fl. rewrite forallb_forall in Fl. specialize (Fl _ I1). cbn in Fl. rewrite D3, Nat.eqb_refl in Fl. discriminate. }
  set (s' := on_c _ _ _).
  assert (Hh : h_st (hs s' h) = HClosed /\ h_data (hs s' h) = DConn c) by (unfold s'; cbn; rewrite upd_same; cbn; auto).
  assert (Hs : forall j, j <> h -> hs s' j = hs s j) by (intros j N; unfold s'; cbn; now rewrite upd_other).
  assert (Hcc : cs s' c = c_st Disconnected (cs s c)) by (unfold s'; cbn; apply upd_same).
  assert (Hcs : forall d, d <> c -> cs s' d = cs s d) by (intros d N; unfold s'; cbn; now rewrite upd_other).
  assert (Hkh : forall d, k_h (cs s' d) = k_h (cs s d)) by (intros d; destruct (Nat.eq_dec d c) as [->|N]; [now rewrite Hcc|now rewrite Hcs]).
  assert (Hfd : forall d, k_fd (cs s' d) = k_fd (cs s d)) by (intros d; destruct (Nat.eq_dec d c) as [->|N]; [now rewrite Hcc|now rewrite Hcs]).
  assert (Hlv : forall d, k_live (cs s' d) = k_live (cs s d)) by (intros d; destruct (Nat.eq_dec d c) as [->|N]; [now rewrite Hcc|now rewrite Hcs]).
  assert (Hwr : forall d, k_wr (cs s' d) = k_wr (cs s d)) by (intros d; destruct (Nat.eq_dec d c) as [->|N]; [now rewrite Hcc|now rewrite Hcs]).
  assert (Hcl : forall d, k_cl (cs s' d) = k_cl (cs s d)) by (intros d; destruct (Nat.eq_dec d c) as [->|N]; [now rewrite Hcc|now rewrite Hcs]).
  constructor.
  - change (raw (JGone c (gv s) g :: K) s') with (raw K s). change (araw (JGone c (gv s) g :: K) s') with (araw K s). change (wraw (JGone c (gv s) g :: K) s') with (wraw K s).
    change (gone (JGone c (gv s) g :: K)) with (c :: gone K). rewrite quiet_gone in * by trivial.
    destruct C as [r1 r2 h1 h2 p1 p2 g1 g2 l1 a1 a2 a3 w1 w2 n1]. constructor; trivial.
    + intros j I. destruct (r2 j I) as (X1 & X2 & X3 & X4). rewrite Hs by (intros ->; congruence). auto.
    + intros j. unfold hok. destruct (Nat.eq_dec j h) as [->|N].
      * destruct Hh as [-> ->]. exists c. rewrite Hkh. repeat split; [now left|trivial].
      * rewrite Hs by trivial. specialize (h1 j). unfold hok in h1. destruct (h_st (hs s j)) as [|[]| |]; trivial.
        -- destruct h1 as [H|(d & X1 & X2 & X3)]; [now left|right]. exists d. rewrite Hkh, Hfd. auto.
        -- destruct h1 as (d & X1 & X2 & X3 & X4). exists d. assert (d <> c) by (intros ->; congruence). rewrite Hkh, Hcs by trivial. auto.
        -- destruct h1 as (d & X1 & [] & X3).
    + intros j Lj. rewrite Hs; [now apply h2|]. intros ->. rewrite h2 in Hc by trivial. discriminate.
    + intros f d I. destruct (p2 f d I) as (X1 & X2 & X3 & X4 & X5 & X6 & X7). assert (d <> c) by (intros ->; congruence). rewrite Hcs by trivial. rewrite !Hs by (intros E; rewrite E in X4; congruence). repeat split; trivial.
    + intros q d I. destruct (g2 q d I) as (X1 & X2 & X3 & X4 & X5). rewrite Hkh, Hlv, Hcl. destruct (Nat.eq_dec d c) as [->|N].
      * rewrite D3. destruct Hh as [-> ->]. repeat split; trivial. right. rewrite Hcc. repeat split. now left.
      * assert (k_h (cs s d) <> h) by (intros E; rewrite E in X4; congruence). rewrite Hcs, !Hs by trivial. repeat split; trivial. destruct X5 as [X5|(X5 & X6 & [])]. now left.
    + intros d Ld. rewrite Hlv in Ld. rewrite Hfd. now apply l1.
    + intros b Lb. destruct (a3 b Lb) as (X1 & [X2|(j & q & X2 & X3 & X4)]); split; trivial; [now left|right]. exists j, q. rewrite !Hs by (intros E; rewrite E in X4; congruence). auto.
    + intros d. rewrite Hlv, Hwr. apply w2.
  - intros k [<-|I]; [cbn [kok]|destruct (Q k I) as (r & ->); exact Logic.I]. rewrite Hcc. repeat split; trivial.
  - exact P.
Qed.

Lemma full_release K s c v g : (exists k, (k = JGone c v g \/ k = JErase c v g) /\ Full (k :: K) s) -> quiet K ->
  exists s', release c v s = Go s' /\ Full K s' /\ frameq s s' /\ log s' = log s /\ (forall d, d <> c -> cs s' d = cs s d) /\ k_live (cs s c) = true /\ k_live (cs s' c) = false /\ (forall h, h_own (hs s' h) = h_own (hs s h)) /\
    k_disc (cs s' c) = k_disc (cs s c) /\ (forall h, hold (hs s' h) = true -> hold (hs s h) = true).
Proof.
  intros (k & Ek & HF) Q. pose proof HF as [C F P].
  assert (Kk : kok s k) by (apply F; now left). assert (In (c, c) (gc s) /\ k_live (cs s c) = true /\ k_st (cs s c) = Disconnected /\ k_wr (cs s c) = false /\ v = gv s) as (G & L & S & W & V) by (destruct Ek as [-> | ->]; exact Kk). clear Kk.
  assert (Hgo : gone (k :: K) = [c]) by (unfold gone; cbn [flat_map]; fold (gone K); rewrite (quiet_gone K Q); destruct Ek as [-> | ->]; reflexivity).
  assert (HR : raw (k :: K) s = raw K s) by (destruct Ek as [-> | ->]; reflexivity). assert (HA : araw (k :: K) s = araw K s) by (destruct Ek as [-> | ->]; reflexivity). assert (HW : wraw (k :: K) s = wraw K s) by (destruct Ek as [-> | ->]; reflexivity).
  rewrite Hgo, HR, HA, HW in C.
  destruct (g_c _ _ _ _ _ C _ _ G) as (_ & _ & Cl & Dh & [[X _]|(_ & Hc & _)]); [congruence|].
  unfold release. rewrite V, Nat.eqb_refl. cbn [negb]. rewrite (find_gc_in _ _ _ _ _ _ C G). unfold free_handle. cbn [hs on_c set_cs set_gc]. rewrite Hc. set (s' := on_h _ _ _). exists s'. split; [reflexivity|].
  set (h := k_h (cs s c)) in *.
  assert (Hh : h_st (hs s' h) = HFreed) by (unfold s'; cbn; fold h; rewrite upd_same; reflexivity).
  assert (Hs : forall j, j <> h -> hs s' j = hs s j) by (intros j N; unfold s'; cbn; now rewrite upd_other).
  assert (Hcc : cs s' c = c_live false (cs s c)) by (unfold s'; cbn; apply upd_same).
  assert (Hcs : forall d, d <> c -> cs s' d = cs s d) by (intros d N; unfold s'; cbn; now rewrite upd_other).
  assert (Gs : forall p d, In (p, d) (gc s') <-> In (p, d) (gc s) /\ p <> c).
  { intros p d. unfold s'. cbn. rewrite filter_In. cbn. split; intros (X & Y); (split; [exact X|]); [intros ->; now rewrite Nat.eqb_refl in Y|apply Nat.eqb_neq in Y; now rewrite Y]. }
  split; [|split; [constructor; reflexivity|split; [reflexivity|split; [exact Hcs|split; [exact L|split; [now rewrite Hcc|split; [|split; [now rewrite Hcc|]]]]]]]].
  - constructor.
    + change (raw K s') with (raw K s). change (araw K s') with (araw K s). change (wraw K s') with (wraw K s). rewrite (quiet_gone K Q).
      destruct C as [r1 r2 h1 h2 p1 p2 g1 g2 l1 a1 a2 a3 w1 w2 n1]. constructor; trivial.
      * intros j I. destruct (r2 j I) as (X1 & X2 & X3 & X4). rewrite Hs by (intros ->; congruence). auto.
      * intros j. unfold hok. destruct (Nat.eq_dec j h) as [->|N]; [now rewrite Hh|]. rewrite Hs by trivial. specialize (h1 j). unfold hok in h1. destruct (h_st (hs s j)) as [|[]| |]; trivial.
        -- destruct h1 as [H|(d & X1 & X2 & X3)]; [now left|right]. exists d. assert (d <> c) by (intros ->; unfold h in N; congruence). rewrite Hcs by trivial. auto.
        -- destruct h1 as (d & X1 & X2 & X3 & X4). exists d. assert (d <> c) by (intros ->; unfold h in N; congruence). rewrite Hcs by trivial. repeat split; trivial. apply Gs. now split.
        -- destruct h1 as (d & X1 & [<-|[]] & X3). unfold h in N. congruence.
      * intros j Lj. destruct (Nat.eq_dec j h) as [->|N]; [exact Hh|]. rewrite Hs by trivial. now apply h2.
      * intros f d I. destruct (p2 f d I) as (X1 & X2 & X3 & X4 & X5 & X6 & X7). assert (d <> c) by (intros ->; congruence). rewrite Hcs by trivial. rewrite !Hs by (intros E; rewrite E in X4; congruence). repeat split; trivial.
      * unfold s'. cbn. now apply nodup_filter.
      * intros q d I. apply Gs in I. destruct I as [I N]. destruct (g2 q d I) as (<- & X2 & X3 & X4 & X5). assert (k_h (cs s q) <> h) by (intros E; rewrite E in X4; congruence). rewrite Hcs, !Hs by trivial. repeat split; trivial. destruct X5 as [X5|(X5 & X6 & [->|[]])]; [now left|congruence].
      * intros d Ld. destruct (Nat.eq_dec d c) as [->|N]; [rewrite Hcc in Ld; discriminate|]. rewrite Hcs in * by trivial. destruct (l1 d Ld) as (X1 & [X2|X2]); (split; [exact X1|]); [now left|right]. now apply Gs.
      * intros b Lb. destruct (a3 b Lb) as (X1 & [X2|(j & q & X2 & X3 & X4)]); split; trivial; [now left|right]. exists j, q. rewrite !Hs by (intros E; rewrite E in X4; congruence). auto.
      * intros d. rewrite w2. destruct (Nat.eq_dec d c) as [->|N]; [|now rewrite Hcs]. rewrite Hcc. cbn. rewrite W. split; intros (X & Y); discriminate.
    + intros j I. destruct (Q j I) as (r & ->). exact Logic.I.
    + exact P.
  - intros j. unfold s'. cbn. unfold upd. destruct (Nat.eqb_spec j h) as [->|]; reflexivity.
  - intros j X. destruct (Nat.eq_dec j h) as [->|N]; [unfold hold in X; rewrite Hh in X; discriminate|]. now rewrite Hs in X.
Qed.

(** * Iterators *)
Lemma full_gv K s v : gone K = [] -> Full K s -> Full K (set_gv v s).
Proof.
  intros G [C F P]. constructor; [destruct C; constructor; assumption| |exact P].
  intros k I. specialize (F k I). destruct k; trivial; exfalso; assert (X : In c (gone K)) by (unfold gone; apply in_flat_map; eexists; split; [exact I|now left]); rewrite G in X; exact X.
Qed.
Lemma disc_rehash c d force s : (disc_inner true c d force s = disc_inner false c d force s) \/
  (forall s', disc_inner false c d force s = Go s' -> disc_inner true c d force s = Go (set_gv (S (gv s')) s')).
Proof.
  unfold disc_inner. set (s1 := emit _ _). destruct (negb (st_eqb _ _)); [now left|]. set (s2 := on_c _ _ s1). destruct (negb force && _); [now left|].
  unfold disc_run. destruct (k_cl _); [now left|]. set (s3 := on_c _ _ s2). right. intros s'. unfold shut_conn. destruct (h_data _); try discriminate. destruct (find_pool _ _); try discriminate. destruct (_ =? _); try discriminate.
  unfold uv_close. cbn [hs set_gv set_pool set_gc]. destruct (is_open _); try discriminate. intros H. apply (f_equal (fun r => match r with Go s => s | _ => s1 end)) in H. rewrite <- H. reflexivity.
Qed.
Lemma full_disc_rh K s c d rh : Full K s -> (rh = true -> gone K = []) -> k_live (cs s c) = true -> exists s', disc_inner rh c d false s = Go s' /\ Full K s' /\ asked s s' c d.
Proof.
  intros F Q L. destruct (full_disc K s c d false F L) as (s' & E & F' & A). destruct rh; [|now exists s'].
  destruct (disc_rehash c d false s) as [X|X]; [exists s'; now rewrite X|]. exists (set_gv (S (gv s')) s'). split; [now apply X|]. split; [apply full_gv; auto|].
  destruct A. constructor; trivial. destruct k_frame0. constructor; trivial.
Qed.

(** * Writing *)
Lemma kok_wr s c x k : k_live x = k_live (cs s c) -> k_st x = k_st (cs s c) -> k_cl x = k_cl (cs s c) -> (k_wr x = false \/ k_wr x = k_wr (cs s c)) ->
  kok s k -> kok (set_cs (upd (cs s) c x) s) k.
Proof.
  intros L S Cl W. assert (A : forall d, k_live (upd (cs s) c x d) = k_live (cs s d) /\ k_st (upd (cs s) c x d) = k_st (cs s d) /\ k_cl (upd (cs s) c x d) = k_cl (cs s d) /\ (k_wr (cs s d) = false -> k_wr (upd (cs s) c x d) = false)).
  { intros d. unfold upd. destruct (Nat.eqb_spec d c) as [->|]; [repeat split; trivial; intros; destruct W; congruence|auto]. }
  destruct k as [r|a g|a o g|h g|d v g|d v g|d f g|d f g|d g|d g]; cbn [kok cs set_cs gc az gv]; trivial; destruct (A d) as (X1 & X2 & X3 & X); rewrite ?X1, ?X2, ?X3; intros; repeat match goal with H : _ /\ _ |- _ => destruct H end; repeat apply conj; auto.
Qed.

Lemma full_write_new K s c q m : Full K s -> k_live (cs s c) = true -> k_st (cs s c) = Connected -> k_wr (cs s c) = false -> Full K (req_start (PWrite c) (on_c c (c_wr true q m) s)).
Proof.
  intros HF L S W. pose proof HF as [C F P]. apply (full_req_start K _ (PWrite c) true). cbn [kont_of].
  assert (NI : ~ In c (wraw K s)) by (intros I; apply (w_c _ _ _ _ _ C) in I; destruct I; congruence).
  apply (full_con K); try reflexivity; trivial; cbn [k_cl k_st c_wr k_wr]; [now left|constructor; [exact NI|apply (w_nd _ _ _ _ _ C)]| |].
  - intros d. cbn [cs set_cs]. change (wraw (JWrit c true :: K) s) with (c :: wraw K s). unfold upd. destruct (Nat.eqb_spec d c) as [->|N]; [split; [now split|now left]|]. rewrite <- (w_c _ _ _ _ _ C d). split; [intros [X|X]; [congruence|exact X]|now right].
  - intros k [<-|I]; [cbn; rewrite upd_same; cbn; rewrite S; now split|].
    specialize (F k I). destruct k as [r|a g|a o g|h g|d v g|d v g|d f g|d f g|d g|d g]; cbn [kok cs set_cs gc az gv] in *; trivial; unfold upd; destruct (Nat.eqb_spec d c) as [->|N]; trivial; cbn [k_live k_st k_wr k_cl c_wr]; repeat match goal with H : _ /\ _ |- _ => destruct H end; try congruence; repeat apply conj; trivial.
Qed.

(** Facts about a change of the writing state of [c] that nothing else sees. *)
Record wrote (s s' : st) (c : nat) (p : list pnd) : Prop := {
  w_nh : nh s' = nh s; w_nc : nc s' = nc s; w_az : az s' = az s; w_na : na s' = na s; w_nr : nr s' = nr s; w_pend : pend s' = p ++ pend s;
  w_fl : cl s' = cl s; w_cb : cb s' = cb s; w_ow : ow s' = ow s; w_lp : lp s' = lp s;
  w_others : forall e, e <> c -> cs s' e = cs s e;
  w_live : k_live (cs s' c) = k_live (cs s c); w_st : k_st (cs s' c) = k_st (cs s c); w_disc : k_disc (cs s' c) = k_disc (cs s c);
  w_own : forall h, h_own (hs s' h) = h_own (hs s h); w_hold : forall h, hold (hs s' h) = true -> hold (hs s h) = true }.

Lemma full_send K s o c m : Full K s -> k_live (cs s c) = true ->
  Full K (send o c m s) /\ exists p z, (p = [] \/ p = [PWrite c]) /\ wrote s (send o c m s) c p /\ stk (send o c m s) = stk s /\ log (send o c m s) = log s ++ [NSent c z] /\ (z = 0%Z -> k_st (cs s c) = Connected).
Proof.
  intros HF L.
  assert (E0 : forall z, (z = 0%Z -> k_st (cs s c) = Connected) -> Full K (emit (NSent c z) s) /\ exists p y, (p = [] \/ p = [PWrite c]) /\ wrote s (emit (NSent c z) s) c p /\ stk (emit (NSent c z) s) = stk s /\ log (emit (NSent c z) s) = log s ++ [NSent c y] /\ (y = 0%Z -> k_st (cs s c) = Connected)).
  { intros z Z. split; [samely|]. exists [], z. split; [now left|]. split; [constructor; trivial|auto]. }
  assert (CN : st_eqb (k_st (cs s c)) Connected = true -> k_st (cs s c) = Connected) by (destruct (k_st (cs s c)); trivial; discriminate).
  unfold send. destruct m; [apply E0; discriminate| | |]; (destruct (st_eqb _ _) eqn:T; cbn [negb]; [|apply E0; discriminate]); specialize (CN eq_refl); [apply E0; discriminate| |].
  - destruct (k_wr (cs s c) || _) eqn:B; [apply E0; auto|]. apply orb_false_iff in B. destruct B as [B _].
    unfold start_write. destruct (o_write o); [|apply E0; discriminate]. set (t := req_start _ _).
    assert (FT : Full K t) by (apply full_write_new; trivial). split; [samely|]. exists [PWrite c], 0%Z. split; [now right|]. split; [|auto].
    constructor; trivial; [intros e N; cbn; now apply upd_other| | |]; cbn; now rewrite upd_same.
  - set (s1 := on_c c _ s).
    assert (E1 : cs s1 c = c_wr (k_wr (cs s c)) (S (k_q (cs s c))) (k_fly (cs s c)) (cs s c)) by (unfold s1; cbn; apply upd_same).
    assert (F1 : Full K s1).
    { pose proof HF as [C F P]. apply (full_con K); try reflexivity; trivial; cbn [k_cl k_st c_wr k_wr]; [now left|apply (w_nd _ _ _ _ _ C)| |].
      - intros d. apply in_wraw_con; trivial. apply (w_c _ _ _ _ _ C).
      - intros k I. apply kok_wr; cbn; auto. }
    assert (G1 : wrote s s1 c []) by (constructor; trivial; [intros e N; cbn; now apply upd_other| | |]; now rewrite E1).
    destruct (k_wr (cs s1 c) || _) eqn:B.
    + split; [samely|]. exists [], 0%Z. split; [now left|]. split; [|auto]. destruct G1. constructor; trivial.
    + apply orb_false_iff in B. destruct B as [B _]. unfold start_write. destruct (o_write o).
      * set (t := req_start _ _). assert (FT : Full K t) by (apply full_write_new; trivial; rewrite E1; trivial). split; [samely|]. exists [PWrite c], 0%Z. split; [now right|]. split; [|auto].
        constructor; trivial; [intros e N; cbn; now rewrite !upd_other| | |]; cbn; rewrite !upd_same; trivial.
      * split; [samely|]. exists [], E_WRITE_FAILED. split; [now left|]. split; [|split; [reflexivity|split; [reflexivity|discriminate]]]. destruct G1. constructor; trivial.
Qed.

Lemma full_write_clear K s c g x : Full (JWrit c g :: K) s -> x = c_wr false (k_q (cs s c)) 0 (cs s c) -> k_st (cs s c) = Connected \/ k_cl (cs s c) = true -> Full K (set_cs (upd (cs s) c x) s).
Proof.
  intros HF -> Q. pose proof HF as [C F P]. destruct (proj1 (w_c _ _ _ _ _ C c)) as [L W]; [now left|].
  pose proof (w_nd _ _ _ _ _ C) as ND. change (wraw (JWrit c g :: K) s) with (c :: wraw K s) in ND. inversion ND as [|? ? NI ND']; subst.
  apply (full_con (JWrit c g :: K)); try reflexivity; trivial; cbn [k_cl k_st c_wr k_wr].
  - intros X. destruct Q; [now left|congruence].
  - intros d. cbn [cs set_cs]. unfold upd. destruct (Nat.eqb_spec d c) as [->|N]; [cbn; split; [contradiction|now intros []]|]. rewrite <- (w_c _ _ _ _ _ C d). split; [now right|intros [X|X]; [congruence|exact X]].
  - intros k I. apply kok_wr; cbn; auto. apply F. now right.
Qed.

Lemma full_after_write K s c g : Full (JWrit c g :: K) s -> exists s2, after_write c g (on_c c (fun k => c_wr false (k_q k) 0 k) s) = Go (unguard g s2) /\ Full K s2 /\ wrote s s2 c [] /\ log s2 = log s /\ stk s2 = stk s.
Proof.
  intros HF. pose proof HF as [C F P]. destruct (proj1 (w_c _ _ _ _ _ C c)) as [L W]; [now left|].
  destruct (F _ (or_introl eq_refl)) as [_ ND].
  set (s1 := on_c c _ s). set (x := c_wr false (k_q (cs s c)) 0 (cs s c)).
  assert (E1 : cs s1 c = x) by (unfold s1; cbn; apply upd_same).
  assert (Wr : wrote s s1 c []) by (constructor; trivial; [intros e N; cbn; now apply upd_other| | |]; now rewrite E1).
  unfold after_write. rewrite E1. cbn [k_st k_wr x c_wr]. cbn [negb]. rewrite andb_true_r. change (k_st x) with (k_st (cs s c)).
  destruct (k_st (cs s c)) eqn:S; [| |congruence]; cbn [st_eqb bind].
  - exists s1. split; [reflexivity|]. split; [apply (full_write_clear K s c g x); auto|auto].
  - unfold disc_run. rewrite E1. change (k_cl x) with (k_cl (cs s c)). destruct (k_cl (cs s c)) eqn:Cl; cbn [bind].
    + exists s1. split; [reflexivity|]. split; [apply (full_write_clear K s c g x); auto|auto].
    + pose proof (pool_or_gc _ _ _ HF L Cl) as IP. set (s3 := on_c c c_closing s1). set (y := c_closing x).
      assert (Hcs : forall e, cs s3 e = upd (cs s) c y e) by (intros e; unfold s3, s1; apply on_c_on_c).
      assert (E3 : cs s3 c = y) by (rewrite Hcs; apply upd_same).
      pose proof (w_nd _ _ _ _ _ C) as NDw. change (wraw (JWrit c g :: K) s) with (c :: wraw K s) in NDw. inversion NDw as [|? ? NI ND']; subst.
      destruct (full_shut2 (JWrit c g :: K) K s c y s3 HF IP) as (X1 & X2 & X3); try reflexivity; trivial.
      { intros d. rewrite Hcs. unfold upd. destruct (Nat.eqb_spec d c) as [->|N]; [cbn; split; [contradiction|now intros []]|]. rewrite <- (w_c _ _ _ _ _ C d). split; [now right|intros [Y|Y]; [congruence|exact Y]]. }
      { intros k I. assert (Kk : kok s k) by (apply F; now right). destruct k as [r|a g0|a o g0|h g0|d v g0|d v g0|d f g0|d f g0|d g0|d g0]; cbn [kok cs set_cs gc az gv] in *; trivial; unfold upd; destruct (Nat.eqb_spec d c) as [->|N]; trivial; unfold y, x; cbn [k_live k_st k_wr k_cl c_wr c_closing]; repeat match goal with H : _ /\ _ |- _ => destruct H end; try congruence; repeat apply conj; trivial; congruence. }
      rewrite X1. cbn [bind]. exists (shut_result c s3). split; [reflexivity|]. split; [exact X2|]. split; [|split; reflexivity].
      constructor; trivial; change (cs (shut_result c s3)) with (cs s3); rewrite ?E3; trivial.
      * intros e N. rewrite Hcs. now apply upd_other.
      * intros h. unfold shut_result. rewrite E3. cbn [hs on_h set_hs set_pool set_gc]. change (hs s3) with (hs s). unfold upd. destruct (Nat.eqb_spec h (k_h y)) as [->|]; reflexivity.
      * intros h. unfold shut_result. rewrite E3. cbn [hs on_h set_hs set_pool set_gc]. change (hs s3) with (hs s). unfold upd. destruct (Nat.eqb_spec h (k_h y)) as [->|]; trivial. intros _.
        destruct (p_c _ _ _ _ _ C _ _ IP) as (_ & _ & Y & _). unfold hold. change (k_h y) with (k_h (cs s c)). now rewrite Y.
Qed.

Lemma full_jwrit K s o c g : Full (JWrit c g :: K) s ->
  (exists s2 p, run_kont o (JWrit c g) s = Go (unguard g s2) /\ Full K s2 /\ (p = [] \/ p = [PWrite c]) /\ wrote s s2 c p /\ log s2 = log s /\ stk s2 = stk s) \/
  (exists s2 n l, run_kont o (JWrit c g) s = Go (emit n (set_stk (Frame l (JCanc c g) :: stk s2) s2)) /\ n :: l = times (k_q (cs s c)) (both (fun f => NWrit f c)) /\ Full (JCanc c g :: K) s2 /\ wrote s s2 c [] /\ log s2 = log s /\ stk s2 = stk s).
Proof.
  intros HF. pose proof HF as [C F P]. destruct (proj1 (w_c _ _ _ _ _ C c)) as [L W]; [now left|].
  destruct (F _ (or_introl eq_refl)) as [_ ND].
  cbn [run_kont]. rewrite L. cbn [negb]. destruct (full_after_write K s c g HF) as (sf & X1 & X2 & X3 & X4 & X5).
  set (s1 := on_c c _ s) in *. set (x := c_wr false (k_q (cs s c)) 0 (cs s c)).
  assert (E1 : cs s1 c = x) by (unfold s1; cbn; apply upd_same). rewrite E1. cbn [k_q k_cl x c_wr]. change (k_q x) with (k_q (cs s c)). change (k_cl x) with (k_cl (cs s c)).
  destruct (Nat.eqb_spec (k_q (cs s c)) 0) as [Q|Q]; [left; exists sf, []; auto 10|].
  destruct (k_cl (cs s c)) eqn:Cl.
  - right. assert (F1 : Full K s1) by (apply (full_write_clear K s c g x); auto).
    destruct (k_q (cs s c)) as [|n] eqn:Qn; [congruence|]. cbn [times both app call]. exists s1. eexists. eexists. split; [reflexivity|]. split; [reflexivity|].
    assert (Wr : wrote s s1 c []) by (constructor; trivial; [intros e N; cbn; now apply upd_other| | |]; now rewrite E1).
    split; [|split; [exact Wr|split; reflexivity]]. apply full_add; trivial; try reflexivity. cbn [kok]. rewrite E1. unfold x. cbn. rewrite L, Cl. repeat split. destruct (k_st (cs s c)) eqn:S; trivial; [|congruence].
    rewrite (connected_open _ _ _ HF L S) in Cl. discriminate.
  - left. unfold start_write. destruct (o_write o); [|exists sf, []; auto 10].
    rewrite E1. set (m := Nat.min _ _). set (s2 := req_start _ _).
    assert (E2 : cs s2 c = c_wr true (k_q x - m) m x) by (unfold s2; cbn [req_start cs set_pend on_c set_cs]; rewrite upd_same, <- E1; reflexivity).
    unfold after_write. rewrite E2. cbn [k_wr c_wr negb]. rewrite andb_false_r. cbn [bind]. exists s2, [PWrite c]. split; [reflexivity|]. split; [|split; [now right|split; [|split; reflexivity]]].
    + apply (full_req_start K _ (PWrite c) g). cbn [kont_of].
      apply (full_same_cs _ (set_cs (upd (cs s) c (c_wr true (k_q x - m) m (cs s c))) s)); try reflexivity.
      { intros e. cbn. unfold upd. rewrite Nat.eqb_refl. destruct (e =? c); reflexivity. }
      apply (full_con (JWrit c g :: K)); try reflexivity; trivial; cbn [k_cl k_st c_wr k_wr].
      * intros _. destruct (k_st (cs s c)); [now left|now right|congruence].
      * apply (w_nd _ _ _ _ _ C).
      * intros d. apply in_wraw_con; cbn; auto. apply (w_c _ _ _ _ _ C).
      * intros k I. apply kok_con; cbn; auto.
    + constructor; trivial; [intros e N; cbn; now rewrite !upd_other| | |]; rewrite E2; reflexivity.
Qed.

Lemma full_jcanc K s o c g : Full (JCanc c g :: K) s -> exists s2, run_kont o (JCanc c g) s = Go (unguard g s2) /\ Full K s2 /\ wrote s s2 c [] /\ log s2 = log s /\ stk s2 = stk s.
Proof.
  intros HF. pose proof HF as [C F P]. destruct (F _ (or_introl eq_refl)) as (L & S & Cl & W).
  cbn [run_kont]. rewrite L. cbn [negb]. set (s1 := on_c c _ s).
  assert (E1 : cs s1 c = c_wr (k_wr (cs s c)) 0 (k_fly (cs s c)) (cs s c)) by (unfold s1; cbn; apply upd_same).
  unfold after_write. rewrite E1. cbn [k_st k_wr c_wr]. rewrite S, W. cbn [st_eqb negb andb]. unfold disc_run. rewrite E1. cbn [k_cl c_wr]. rewrite Cl. cbn [bind]. exists s1. split; [reflexivity|].
  assert (F1 : Full K s) by (revert HF; apply full_drop; reflexivity). split; [|split; [|split; reflexivity]].
  - pose proof F1 as [C1 G1 P1]. apply (full_con K); try reflexivity; trivial; cbn [k_cl k_st c_wr k_wr]; [congruence|apply (w_nd _ _ _ _ _ C1)| |].
    + intros d. apply in_wraw_con; cbn; auto. apply (w_c _ _ _ _ _ C1).
    + intros k I. apply kok_wr; cbn; auto.
  - constructor; trivial; [intros e N; cbn; now apply upd_other| | |]; now rewrite E1.
Qed.
