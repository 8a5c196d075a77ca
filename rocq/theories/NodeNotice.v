(** Endpoint notifications: proofs. *)
From Verif Require Import Base Subnet Route Address NodeTypes NodeConn NodeCore NodeMsg Node
  NodeFrame NodeReset NodeInv NodeKeep NodeSteps NodeReach NodeSpec NodeLog.
From Coq Require Import Sorting.Sorted.
Local Open Scope N_scope.
Ltac Zify.zify_post_hook ::= idtac.

(** ** The routing table as an ordered map *)
Definition klt (a b : range * ep) : Prop := range_ltb (fst a) (fst b) = true.
Definition same_key (r k : range) : Prop := g_max r = g_max k /\ g_min r = g_min k.
Lemma ltb_trans x y z : range_ltb x y = true -> range_ltb y z = true -> range_ltb x z = true.
Proof.
  unfold range_ltb. destruct (N.eqb_spec (g_max x) (g_max y)), (N.eqb_spec (g_max y) (g_max z)), (N.eqb_spec (g_max x) (g_max z));
    rewrite ?N.ltb_lt; lia.
Qed.
Lemma ltb_irr x : range_ltb x x = false.
Proof. unfold range_ltb. rewrite N.eqb_refl. apply N.ltb_irrefl. Qed.
Lemma ltb_same r k x : same_key r k -> range_ltb r x = range_ltb k x /\ range_ltb x r = range_ltb x k.
Proof. intros [A B]. unfold range_ltb. now rewrite A, B. Qed.
Lemma ltb_none r k : range_ltb r k = false -> range_ltb k r = false -> same_key r k.
Proof.
  unfold range_ltb, same_key. rewrite (N.eqb_sym (g_max k)). destruct (N.eqb_spec (g_max r) (g_max k)); rewrite !N.ltb_ge; lia.
Qed.
Lemma coll_set_entries c k e : forall p, In p (coll_set c k e) ->
  In p c \/ (snd p = e /\ same_key (fst p) k).
Proof.
  induction c as [|[r y] c IH]; intro p; cbn [coll_set].
  - intros [<-|[]]. right. now split.
  - destruct (range_ltb r k) eqn:A; [intros [<-|I]; [now left; left|]; apply IH in I as [I|I]; [now left; right|now right]|].
    destruct (range_ltb k r) eqn:B; [intros [<-|I]; [right; now split|now left]|].
    intros [<-|I]; [right; split; [reflexivity|now apply ltb_none]|now left; right].
Qed.
Lemma coll_set_sorted c k e : StronglySorted klt c -> StronglySorted klt (coll_set c k e).
Proof.
  induction 1 as [|[r y] c S IH F]; cbn [coll_set]; [repeat constructor|].
  destruct (range_ltb r k) eqn:A.
  - constructor; [exact IH|]. apply Forall_forall. intros p P. apply coll_set_entries in P as [P|[_ P]].
    + rewrite Forall_forall in F. now apply F.
    + unfold klt. cbn [fst]. now rewrite (proj2 (ltb_same _ _ r P)).
  - destruct (range_ltb k r) eqn:B.
    + constructor; [now constructor|]. constructor; [exact B|]. eapply Forall_impl; [|exact F].
      intros p P. unfold klt in *. cbn [fst] in *. eapply ltb_trans; eauto.
    + constructor; assumption.
Qed.
Lemma coll_sets_sorted rs e : forall c, StronglySorted klt c -> StronglySorted klt (fold_left (fun c r => coll_set c r e) rs c).
Proof. induction rs as [|r rs IH]; intros c S; [exact S|]. cbn. apply IH. now apply coll_set_sorted. Qed.
Lemma coll_sets_entries rs e : forall c p, In p (fold_left (fun c r => coll_set c r e) rs c) ->
  In p c \/ (snd p = e /\ exists k, In k rs /\ same_key (fst p) k).
Proof.
  induction rs as [|r rs IH]; intros c p I; cbn in I; [now left|].
  apply IH in I as [I|(E & k & K & S)]; [|right; split; [exact E|]; exists k; split; [now right|exact S]].
  apply coll_set_entries in I as [I|[E S]]; [now left|]. right. split; [exact E|]. exists r. split; [now left|exact S].
Qed.
Lemma sorted_sub c c' : sub c c' -> StronglySorted klt c' -> StronglySorted klt c.
Proof.
  induction 1; intro S; trivial; inversion S as [|? ? S1 F]; subst; [|auto].
  constructor; [auto|]. rewrite Forall_forall in *. intros p P. apply F. eapply sub_in; eauto.
Qed.
Lemma coll_erase_gone c k : StronglySorted klt c -> forall p, In p (coll_erase c k) -> ~ same_key (fst p) k.
Proof.
  induction 1 as [|[r y] c S IH F]; [intros p []|]. intros p. cbn [coll_erase]. rewrite Forall_forall in F.
  destruct (range_ltb r k) eqn:A; [|destruct (range_ltb k r) eqn:B].
  - intros [<-|I]; [|now apply IH]. intro X. cbn in X. rewrite (proj1 (ltb_same _ _ k X)), ltb_irr in A. discriminate.
  - intros I X. destruct I as [<-|I].
    + cbn in X. rewrite (proj2 (ltb_same _ _ k X)), ltb_irr in B. discriminate.
    + specialize (F p I). unfold klt in F. cbn [fst] in F. rewrite (proj2 (ltb_same _ _ r X)) in F.
      pose proof (ltb_trans _ _ _ B F) as T. now rewrite ltb_irr in T.
  - intros I X. specialize (F p I). unfold klt in F. cbn [fst] in F.
    rewrite (proj2 (ltb_same _ _ r X)) in F. congruence.
Qed.
Lemma coll_erases_gone rs : forall c, StronglySorted klt c -> forall p, In p (fold_left coll_erase rs c) ->
  forall k, In k rs -> ~ same_key (fst p) k.
Proof.
  induction rs as [|r rs IH]; intros c S p P k K; [destruct K|]. cbn in P.
  assert (S1 : StronglySorted klt (coll_erase c r)) by (eapply sorted_sub; [apply coll_erase_sub|exact S]).
  destruct K as [<-|K]; [|eapply IH; eauto].
  apply (coll_erase_gone c); [exact S|]. eapply sub_in; [apply coll_erases_sub|exact P].
Qed.
(** Entries of one endpoint. *)
Definition entries (e : N) (c : coll) : nat := length (filter (fun p : range * ep => e_ref (snd p) =? e) c).
Lemma entries_sub e c c' : sub c c' -> (entries e c <= entries e c')%nat.
Proof. unfold entries. induction 1 as [|p c c' S IH|p c c' S IH]; cbn; [lia| |]; destruct (_ =? e); cbn; lia. Qed.
Lemma entries_none e c : entries e c = 0%nat <-> forall p, In p c -> e_ref (snd p) <> e.
Proof.
  unfold entries. induction c as [|p c IH]; cbn; [intuition|]. destruct (N.eqb_spec (e_ref (snd p)) e) as [E|E]; cbn.
  - split; [lia|]. intro F. elim (F p); auto.
  - rewrite IH. split; [intros F q [<-|Q]; auto|auto].
Qed.
Lemma entries_set e c k x : (entries e (coll_set c k x) <= entries e c + (if (e_ref x =? e)%N then 1 else 0))%nat.
Proof.
  unfold entries. induction c as [|[r y] c IH]; cbn [coll_set]; [cbn; destruct (_ =? e); cbn; lia|].
  destruct (range_ltb r k); [|destruct (range_ltb k r)]; cbn; destruct (e_ref y =? e), (e_ref x =? e); cbn in *; lia.
Qed.
Lemma entries_sets e x rs : forall c,
  (entries e (fold_left (fun c r => coll_set c r x) rs c) <= entries e c + (if (e_ref x =? e)%N then length rs else 0))%nat.
Proof.
  induction rs as [|r rs IH]; intro c; cbn [fold_left length]; [destruct (_ =? e); lia|].
  specialize (IH (coll_set c r x)). pose proof (entries_set e c r x). destruct (_ =? e); lia.
Qed.

(** ** The notifications *)
Definition absent (s : node) (e : N) : Prop :=
  (forall p, parent s = Some p -> e_ref p <> e) /\ entries e (routes s) = 0%nat.
Definition ranges_of (s : node) (e : N) : nat := length (e_subs (d_ep (es s e))).
Inductive hist (s : node) (e : N) : list bool -> Prop :=
| H_never : absent s e -> hist s e []
| H_in : (entries e (routes s) <= ranges_of s e)%nat ->
    ((exists p, parent s = Some p /\ e_ref p = e) -> entries e (routes s) = 0%nat) -> hist s e [true]
| H_out k : absent s e -> (S k <= Nat.max 1 (ranges_of s e))%nat -> hist s e (true :: repeat false (S k)).
Record noticed (s : node) : Prop := {
  N_sorted : StronglySorted klt (routes s);
  N_keys : forall p, In p (routes s) -> exists k, In k (e_subs (snd p)) /\ same_key (fst p) k;
  N_pos : notified 0 (rev (log s)) = [];
  N_hist : forall e, hist s e (notified e (rev (log s))) }.

Lemma notified_snoc e l t : notified e (l ++ [t]) = notified e l ++ about e t.
Proof. unfold notified. rewrite flat_map_app. cbn [flat_map]. now rewrite app_nil_r. Qed.
Definition mute (t : tr) : Prop := match t with TAdded _ | TRemoved _ => False | _ => True end.
Lemma notified_mute e l s : Forall mute l -> notified e (rev (l ++ s)) = notified e (rev s).
Proof.
  induction 1 as [|t l F _ IH]; [reflexivity|]. change (rev ((t :: l) ++ s)) with (rev (l ++ s) ++ [t]).
  rewrite notified_snoc, IH. destruct t; try contradiction; apply app_nil_r.
Qed.
Lemma notified_in e l : notified e (rev l) <> [] -> In (TAdded e) l \/ In (TRemoved e) l.
Proof.
  induction l as [|t l IH]; [now intros []|]. cbn [rev]. rewrite notified_snoc. intro X.
  destruct (notified e (rev l)) eqn:E.
  - cbn in X. destruct t; cbn in X; try (now elim X).
    + destruct (N.eqb_spec e0 e) as [->|]; [left; now left|now elim X].
    + destruct (N.eqb_spec e0 e) as [->|]; [right; now left|now elim X].
  - destruct IH; [discriminate|left; now right|right; now right].
Qed.
Lemma notified_added e l : In true (notified e (rev l)) -> In (TAdded e) l.
Proof.
  induction l as [|t l IH]; [contradiction|]. cbn [rev]. rewrite notified_snoc. intro X. apply in_app_iff in X as [X|X]; [right; auto|].
  destruct t; cbn in X; try contradiction; destruct (N.eqb_spec e0 e) as [->|]; cbn in X; intuition; discriminate.
Qed.

Lemma hist_known s e n : hist s e n -> n <> [] -> In true n.
Proof. intros [A|A B|k A B] X; [now elim X|now left|now left]. Qed.
Lemma hist_less s s' e n : (n <> [] -> ranges_of s' e = ranges_of s e) ->
  (forall p, parent s' = Some p -> e_ref p = e -> parent s = Some p) ->
  (entries e (routes s') <= entries e (routes s))%nat -> hist s e n -> hist s' e n.
Proof.
  intros R P E H. revert R. destruct H as [A|A B|k [A1 A2] B]; intro R.
  - apply H_never. destruct A as [A1 A2]. split; [|lia]. intros p X Y. eapply A1; eauto.
  - apply H_in; [rewrite R; [lia|discriminate]|]. intros (p & X & Y). assert (Z : entries e (routes s) = 0%nat) by eauto. lia.
  - apply (H_out _ _ k); [|rewrite R; [exact B|discriminate]]. split; [|lia]. intros p X Y. eapply A1; eauto.
Qed.
Lemma ranges_grow s s' e : Inv s -> grow s s' -> noticed s ->
  notified e (rev (log s)) <> [] -> ranges_of s' e = ranges_of s e.
Proof.
  intros I G N X. unfold ranges_of. f_equal. f_equal. apply (G_ep _ _ G). split.
  - destruct (N.eq_dec e 0) as [->|]; [|lia]. now rewrite (N_pos s N) in X.
  - eapply (I_log s I). now apply notified_in.
Qed.
(** Steps that touch neither the tables nor the notifications. *)
Lemma noticed_log l s s' : Inv s -> grow s s' -> log s' = l ++ log s -> Forall mute l ->
  parent s' = parent s -> routes s' = routes s -> noticed s -> noticed s'.
Proof.
  intros I G L F P R N. destruct N as [N1 N2 N3 N4] eqn:X. clear X. constructor.
  - now rewrite R.
  - now rewrite R.
  - now rewrite L, notified_mute.
  - intro e. rewrite L, notified_mute by exact F. apply (hist_less s); [|now rewrite P|now rewrite R|apply N4].
    now apply ranges_grow.
Qed.
Lemma noticed_same s s' : Inv s -> grow s s' -> log s' = log s -> parent s' = parent s -> routes s' = routes s ->
  noticed s -> noticed s'.
Proof. intros I G L. now apply (noticed_log []). Qed.
Lemma noticed_emit t s : Inv s -> mute t -> noticed s -> noticed (emit t s).
Proof. intros I M. apply (noticed_log [t]); trivial; [|now repeat constructor]. now apply grow_same. Qed.
Lemma soft_mute s s' : soft s s' -> exists l, log s' = l ++ log s /\ Forall mute l.
Proof.
  intros [(l & L & F) _]. exists l. split; [exact L|]. eapply Forall_impl; [|exact F]. intros []; cbn; trivial; discriminate.
Qed.
Lemma tab_parent s p : Inv s -> parent s = Some p -> alive s p.
Proof. intros I P. apply (I_tab s I). right. now left. Qed.
Lemma tab_route s p : Inv s -> In p (routes s) -> alive s (snd p).
Proof. intros I P. apply (I_tab s I). right. right. left. now apply in_map. Qed.
(** An endpoint in a table was added and not removed. *)
Lemma hist_present s e n : hist s e n -> ~ absent s e -> n = [true].
Proof. intros [A|A B|k A B] X; trivial; contradiction. Qed.
(** One notification, and no other. *)
Definition tells (t : tr) (s s' : node) : Prop := forall e, notified e (rev (log s')) = notified e (rev (log s)) ++ about e t.
Lemma tells_log t l1 l2 s s' : log s' = l1 ++ t :: l2 ++ log s -> Forall mute l1 -> Forall mute l2 -> tells t s s'.
Proof.
  intros L F1 F2 e. rewrite L, notified_mute by exact F1. cbn [rev]. rewrite notified_snoc, notified_mute by exact F2. reflexivity.
Qed.
(** Taking endpoint [x] out of the tables with one notification. *)
Lemma noticed_remove s s' x : Inv s -> grow s s' -> 0 < x ->
  tells (TRemoved x) s s' -> ~ absent s x -> absent s' x ->
  sub (routes s') (routes s) -> (forall p, parent s' = Some p -> parent s = Some p) ->
  noticed s -> noticed s'.
Proof.
  intros I G Z L A A' R P N. constructor.
  - eapply sorted_sub; [exact R|apply (N_sorted s N)].
  - intros p Q. apply (N_keys s N). eapply sub_in; eauto.
  - rewrite L, (N_pos s N). cbn. destruct (N.eqb_spec x 0); [lia|reflexivity].
  - intro e. rewrite L. cbn [about]. destruct (N.eqb_spec x e) as [<-|D].
    + rewrite (hist_present _ _ _ (N_hist s N x) A). apply (H_out s' x 0); [exact A'|lia].
    + rewrite app_nil_r. apply (hist_less s); [now apply ranges_grow|auto|now apply entries_sub|apply (N_hist s N)].
Qed.
Lemma noticed_rmparent s s' p : Inv s -> grow s s' -> parent s = Some p ->
  tells (TRemoved (e_ref p)) s s' -> parent s' = None -> routes s' = routes s -> noticed s -> noticed s'.
Proof.
  intros I G P L P' R N. assert (A : ~ absent s (e_ref p)) by (intros [A _]; now elim (A p P)).
  apply (noticed_remove s s' (e_ref p)); trivial.
  - apply (tab_parent s p I P).
  - split; [now rewrite P'|]. rewrite R.
    pose proof (N_hist s N (e_ref p)) as H. rewrite (hist_present _ _ _ H A) in H. inversion H as [|A1 B|]; subst. apply B. now exists p.
  - rewrite R. apply sub_refl.
  - rewrite P'. discriminate.
Qed.
Lemma noticed_rmchild s s' i ex t e : Inv s -> grow s s' -> remove_child (routes s) i ex = (true, t) -> child_at (routes s) i = Some e ->
  tells (TRemoved (e_ref e)) s s' -> parent s' = parent s -> routes s' = t -> noticed s -> noticed s'.
Proof.
  intros I G RM CH L P R N. subst t.
  unfold child_at in CH. unfold remove_child in RM. destruct (lower_bound (routes s) (point i)) as [[k y]|] eqn:B; [|discriminate].
  cbn in CH. injection CH as ->.
  assert (E : routes s' = fold_left coll_erase (e_subs e) (routes s)).
  { destruct (negb _); [discriminate|]. destruct ex as [x|]; [destruct (negb _)|]; congruence. }
  assert (Q : In (k, e) (routes s)).
  { clear -B. revert B. induction (routes s) as [|[r z] c IH]; cbn [lower_bound]; [discriminate|].
    destruct (range_ltb r _); [right; auto|]. intro X. injection X as -> ->. now left. }
  assert (A : ~ absent s (e_ref e)).
  { intros [_ A]. rewrite entries_none in A. now elim (A (k, e) Q). }
  apply (noticed_remove s s' (e_ref e)); trivial.
  - apply (tab_route s (k, e) I Q).
  - split.
    + rewrite P. intros p X Y. pose proof (N_hist s N (e_ref e)) as H. rewrite (hist_present _ _ _ H A) in H.
      inversion H as [|A1 B1|]; subst. apply A. split; [|apply B1; now exists p].
      assert (Z : entries (e_ref e) (routes s) = 0%nat) by (apply B1; now exists p).
      rewrite entries_none in Z. elim (Z (k, e) Q). reflexivity.
    + rewrite E. apply entries_none. intros p X Y.
      assert (In1 : In p (routes s)) by (eapply sub_in; [apply coll_erases_sub|exact X]).
      assert (SE : snd p = e).
      { pose proof (tab_route s _ I In1) as [_ D1]. pose proof (tab_route s _ I Q) as [_ D2]. cbn [snd] in D2. rewrite Y in D1. congruence. }
      destruct (N_keys s N p In1) as (q & Q1 & Q2). rewrite SE in Q1.
      eapply (coll_erases_gone (e_subs e)); eauto. apply (N_sorted s N).
  - rewrite E. apply coll_erases_sub.
  - now rewrite P.
Qed.
Lemma noticed_add s s' x : Inv s -> grow s s' -> alive s x -> ~ In (TAdded (e_ref x)) (log s) ->
  tells (TAdded (e_ref x)) s s' ->
  (parent s' = Some x /\ parent s = None /\ routes s' = routes s) \/
  (parent s' = parent s /\ routes s' = fold_left (fun c r => coll_set c r x) (e_subs x) (routes s)) ->
  noticed s -> noticed s'.
Proof.
  intros I G AL F L C N.
  assert (NE : notified (e_ref x) (rev (log s)) = []).
  { destruct (notified _ _) eqn:E; [reflexivity|]. elim F. apply notified_added. rewrite E.
    apply (hist_known s (e_ref x)); [rewrite <- E; apply (N_hist s N)|discriminate]. }
  assert (AB : absent s (e_ref x)).
  { pose proof (N_hist s N (e_ref x)) as H. rewrite NE in H. now inversion H. }
  assert (RX : ranges_of s' (e_ref x) = length (e_subs x)).
  { unfold ranges_of. rewrite (G_ep _ _ G) by apply AL. now rewrite (proj2 AL). }
  constructor.
  - destruct C as [(_ & _ & ->)|(_ & ->)]; [apply (N_sorted s N)|]. apply coll_sets_sorted, (N_sorted s N).
  - destruct C as [(_ & _ & ->)|(_ & ->)]; [apply (N_keys s N)|]. intros p Q.
    apply coll_sets_entries in Q as [Q|(E & k & K & S)]; [now apply (N_keys s N)|]. rewrite E. eauto.
  - rewrite L, (N_pos s N). cbn. destruct AL as [AL _]. destruct (N.eqb_spec (e_ref x) 0); [lia|reflexivity].
  - intro e. rewrite L. cbn [about]. destruct (N.eqb_spec (e_ref x) e) as [<-|D].
    + rewrite NE. destruct AB as [AP AE]. cbn [app]. apply H_in.
      * rewrite RX. destruct C as [(_ & _ & ->)|(_ & ->)]; [lia|].
        pose proof (entries_sets (e_ref x) x (e_subs x) (routes s)) as Z. rewrite N.eqb_refl in Z. lia.
      * destruct C as [(_ & _ & ->)|(-> & _)]; [auto|]. intros (p & X & Y). now elim (AP p X).
    + rewrite app_nil_r. apply (hist_less s); [now apply ranges_grow|..|apply (N_hist s N)].
      * destruct C as [(-> & _ & _)|(-> & _)]; [|auto]. intros p X Y. injection X as <-. contradiction.
      * destruct C as [(_ & _ & ->)|(_ & ->)]; [lia|].
        pose proof (entries_sets e x (e_subs x) (routes s)) as Z. destruct (N.eqb_spec (e_ref x) e); [contradiction|lia].
Qed.
Lemma noticed_purge s : Inv s -> noticed s -> noticed (purge s).
Proof.
  intros I N. unfold purge.
  assert (L : forall l s0, log (fold_left (fun s e => emit (TRemoved e) s) l s0) = rev (map TRemoved l) ++ log s0 /\
    parent (fold_left (fun s e => emit (TRemoved e) s) l s0) = parent s0 /\ routes (fold_left (fun s e => emit (TRemoved e) s) l s0) = routes s0 /\
    es (fold_left (fun s e => emit (TRemoved e) s) l s0) = es s0).
  { induction l as [|e l IH]; intro s0; [now repeat split|]. cbn [fold_left]. destruct (IH (emit (TRemoved e) s0)) as (A & B & C & D).
    rewrite A, B, C, D. cbn [map rev]. rewrite <- app_assoc. now repeat split. }
  destruct (L (map (fun p => e_ref (snd p)) (routes s)) (set_routes [] s)) as (A & B & C & D).
  set (s' := fold_left _ _ _) in *. clearbody s'. clear L. cbn [log set_routes parent routes es] in A, B, C, D.
  assert (H : forall e c, notified e (rev (rev (map TRemoved (map (fun p : range * ep => e_ref (snd p)) c)) ++ log s)) =
    notified e (rev (log s)) ++ repeat false (entries e c)).
  { intros e c. rewrite rev_app_distr, rev_involutive. unfold notified at 1. rewrite flat_map_app. f_equal.
    unfold entries. induction c as [|p c IH]; [reflexivity|]. cbn. rewrite IH. destruct (_ =? e); reflexivity. }
  constructor.
  - rewrite C. constructor.
  - rewrite C. contradiction.
  - rewrite A, H, (N_pos s N). cbn. assert (Z : entries 0 (routes s) = 0%nat); [|now rewrite Z].
    apply entries_none. intros p P E. pose proof (tab_route s p I P) as [X _]. lia.
  - intro e. rewrite A, H. unfold absent. pose proof (N_hist s N e) as X. destruct X as [X|X Y|k X Y].
    + destruct X as [X1 X2]. rewrite X2. cbn. apply H_never. split; [now rewrite B|now rewrite C].
    + destruct (entries e (routes s)) eqn:E.
      * cbn. apply H_in; [rewrite C; apply Nat.le_0_l|rewrite C; reflexivity].
      * apply (H_out s' e n).
        -- split; [|now rewrite C]. rewrite B. intros p P Q. assert (0%nat = S n) by (symmetry; apply Y; eauto). discriminate.
        -- unfold ranges_of in *. rewrite D. lia.
    + destruct X as [X1 X2]. rewrite X2. cbn [repeat]. rewrite app_nil_r. apply H_out; [split; [now rewrite B|now rewrite C]|].
      unfold ranges_of in *. now rewrite D.
Qed.
Lemma micro_noticed a s s' : Inv s -> micro a s s' -> noticed s -> noticed s'.
Proof.
  intros I M. pose proof (micro_grow a s s' I M) as G. revert G.
  destruct M as [s s' C|v s V|s N|z s|t s T|s|c f s|l s|c m s|c z n s|c s|g e s|e c b s|e f s|i subs p h s|x s _ N A I0
    |i ex s|p s P|i ex t e s R C|s|l s|l s|l s|c s|c s|e s|x s|v s|e s|e s]; intro G;
    try (now apply noticed_same); try (apply noticed_same; trivial; now (reflexivity || fr1)).
  - destruct C as (E1 & E2 & E3 & E4 & E5 & E6 & E7 & E8 & E9 & E10 & E11 & E12 & E13 & E14 & E15 & E16 & E17 & E18).
    now apply noticed_same.
  - unfold on_actived in *. cbn [fl_act set_nst] in *. destruct (fl_act s); [now apply noticed_same|].
    apply (noticed_log [TUp]); trivial. now repeat constructor.
  - unfold shutdown in *. destruct (fl_shut s); [trivial|]. cbn [fl_act set_fl_shut] in *. destruct (fl_act s); [|now apply noticed_same].
    apply (noticed_log [TDown z]); trivial. now repeat constructor.
  - apply noticed_emit; trivial. destruct t; try exact Logic.I; contradiction.
  - destruct (push_log c m s) as [L|[r L]].
    + apply noticed_same; trivial; fr1.
    + apply (noticed_log [TSend c m (x_size (cf s) m) r]); trivial; [constructor; [exact Logic.I|constructor]|fr1|fr1].
  - unfold written in *. destruct (linked s c); [|trivial]. cbv zeta in *.
    apply (noticed_log [TWrote c z n]); trivial; destruct (_ =? _)%Z; try reflexivity; now repeat constructor.
  - destruct (soft_mute _ _ (soft_conn_reset c s)) as (l & L & F). apply (noticed_log l); trivial; fr1.
  - destruct (soft_mute _ _ (soft_ep_reset None g e s)) as (l & L & F). apply (noticed_log l); trivial; fr1.
  - destruct (soft_mute _ _ (soft_addconn e c b s)) as (l & L & F). apply (noticed_log l); trivial; fr1.
  - unfold add_endpoint in *. destruct (fl_reset s); [trivial|]. destruct (_ && _).
    + destruct (parent s) eqn:P; [trivial|]. cbv zeta in *. cbn [fst] in *. set (s2 := add_ping x (set_parent (Some x) s)) in *.
      assert (Q : log s2 = log s /\ parent s2 = Some x /\ routes s2 = routes s) by (subst s2; split; [|split]; fr1).
      clearbody s2. destruct Q as (Q1 & Q2 & Q3). apply (noticed_add s _ x); trivial.
      * destruct (_ && _); [unfold on_actived; cbn [fl_act set_nst]; destruct (fl_act s2)|].
        -- now apply (tells_log _ [] []); [cbn; rewrite Q1|..].
        -- apply (tells_log _ [] [TUp]); [cbn; now rewrite Q1|constructor|now repeat constructor].
        -- now apply (tells_log _ [] []); [cbn; rewrite Q1|..].
      * left. split; [|split; [exact P|]]; destruct (_ && _); unfold on_actived; cbn [fl_act set_nst]; try (destruct (fl_act s2)); assumption.
    + destruct (_ && _); [trivial|]. destruct (insert_child _ _) as [[] t] eqn:E; [|trivial]. cbn [fst] in *.
      unfold insert_child in E. destruct (check_conflicts _ _); [discriminate|]. injection E as <-.
      apply (noticed_add s _ x); trivial; [apply (tells_log _ [] []); [cbn; fr1|constructor|constructor]|]. right. split; fr1.
  - unfold remove_endpoint in *. destruct (is_parent s i).
    + destruct (parent s) as [p|] eqn:P; [|trivial]. destruct (match ex with Some _ => _ | None => _ end); [trivial|]. cbv zeta in *. cbn [fst] in *.
      apply (noticed_rmparent s _ p); trivial; cbn [fl_act emit set_log set_popr set_nst set_parent]; unfold fatal_shutdown, shutdown;
        cbn [fl_shut emit set_log set_popr set_nst set_parent set_fl_shut fl_act];
        destruct (fl_act s) eqn:A; try destruct (fl_shut s); try (now apply (tells_log _ [] [])); try reflexivity.
    + destruct (_ =? _); [trivial|]. destruct (remove_child _ _ _) as [[] t] eqn:R; [|trivial].
      destruct (child_at _ _) eqn:C; [|trivial]. cbn [fst] in *.
      apply (noticed_rmchild s _ i ex t e); trivial. now apply (tells_log _ [] []).
  - apply (noticed_rmparent s _ p); trivial. now apply (tells_log _ [] []).
  - apply (noticed_rmchild s _ i ex t e); trivial. now apply (tells_log _ [] []).
  - now apply noticed_purge.
  - apply (noticed_log [TFault e (e_id (d_ep (es s e))) (x_tol (cf s))]); trivial. constructor; [exact Logic.I|constructor].
  - apply (noticed_log [TGood e]); trivial. constructor; [exact Logic.I|constructor].
Qed.
Lemma estep_noticed s s' : Inv s -> estep true s s' -> noticed s -> noticed s'.
Proof.
  intros I E. destruct E as [v s _|a s s' M|s P R PI C PE LP|x s N|e s N A].
  - apply noticed_same; trivial. now apply grow_same.
  - eapply micro_noticed; eauto.
  - intro N. constructor; [apply (N_sorted s N)|apply (N_keys s N)|..].
    + change (log (finish s)) with ([TReset] ++ log s). rewrite notified_mute by now repeat constructor. apply (N_pos s N).
    + intro e. change (log (finish s)) with ([TReset] ++ log s). rewrite notified_mute by now repeat constructor.
      apply (hist_less s); trivial. apply (N_hist s N).
  - apply noticed_same; trivial. now apply grow_same.
  - apply noticed_same; trivial. now apply grow_same.
Qed.
Theorem reachable_noticed s : reachable s -> noticed s.
Proof.
  apply reachable_ind; [|apply estep_noticed]. constructor; [constructor|contradiction|reflexivity|].
  intro e. apply H_never. split; [discriminate|reflexivity].
Qed.
