(** What must have happened before a node reports that it is up. *)
From Verif Require Import Base Subnet Route Address NodeTypes NodeConn NodeCore NodeMsg Node
  NodeFrame NodeReset NodeInv NodeKeep NodeSteps NodeCtx NodeReach NodeSpec NodeLog NodeAuth NodeTime.
Local Open Scope N_scope.
Ltac Zify.zify_post_hook ::= idtac.

Lemma micro_self a s s' : micro a s s' -> self s' = self s.
Proof.
  intro M. destruct M as [s s' C|v s V|s N|z s|t s T|s|c f s|l s|c m s|c z n s|c s|g e s|e c b s|e f s|i subs p h s|x s _ N A I0
    |i ex s|p s P|i ex t e s R C|s|l s|l s|l s|c s|c s|e s|x s|v s|e s|e s]; try reflexivity; try fr1; [apply C|].
  unfold purge. change (self s) with (self (set_routes [] s)). generalize (map (fun p : range * ep => e_ref (snd p)) (routes s)). intro l.
  generalize (set_routes [] s). induction l as [|x l IH]; intros s1; cbn [fold_left]; [reflexivity|]. rewrite IH. reflexivity.
Qed.
Definition noted (t : tr) : Prop := match t with TUp | TReset => False | _ => True end.
Definition ordinary (s s' : node) : Prop :=
  (exists l, log s' = l ++ log s /\ Forall noted l) /\ (parent s' = parent s \/ parent s' = None).
Lemma ord_same s s' : log s' = log s -> parent s' = parent s -> ordinary s s'.
Proof. intros L P. split; [exists []; split; [exact L|constructor]|now left]. Qed.
Lemma ord_log l s s' : log s' = l ++ log s -> Forall noted l -> parent s' = parent s \/ parent s' = None -> ordinary s s'.
Proof. intros L F P. split; [now exists l|exact P]. Qed.
Lemma ord_soft s s' : soft s s' -> parent s' = parent s -> ordinary s s'.
Proof.
  intros [(l & L & F) _] P. apply (ord_log l); auto. eapply Forall_impl; [|exact F]. intros [] X; try discriminate X; exact Logic.I.
Qed.
Lemma ord_trans s1 s2 s3 : ordinary s1 s2 -> ordinary s2 s3 -> ordinary s1 s3.
Proof.
  intros [(l1 & E1 & F1) P1] [(l2 & E2 & F2) P2]. apply (ord_log (l2 ++ l1)).
  - now rewrite E2, E1, app_assoc.
  - now apply Forall_app.
  - destruct P2 as [->| ->]; auto.
Qed.
Lemma micro_kinds a s s' : micro a s s' -> ordinary s s' \/
  (s' = on_actived s /\ nst s <> NCreated /\ (my_id s = 0 \/ x_parent (cf s) = [] \/ parent s <> None)) \/
  (exists x, s' = fst (add_endpoint x s) /\ nst s <> NCreated /\ alive s x).
Proof.
  intro M. destruct M as [s s' C|v s V|s N|z s|t s T|s|c f s|l s|c m s|c z n s|c s|g e s|e c b s|e f s|i subs p h s|x s A0 N A I0 Z0
    |i ex s|p s P|i ex t e s R C|s|l s|l s|l s|c s|c s|e s|x s|v s|e s|e s]; try (right; right; exists x; repeat split; (exact N || apply A); fail);
    try (right; left; split; [reflexivity|exact N]); left; try (apply ord_same; now (reflexivity || fr1)).
  - apply ord_same; apply C.
  - unfold shutdown. destruct (fl_shut s); [now apply ord_same|]. cbn [fl_act set_fl_shut]. destruct (fl_act s); [|now apply ord_same].
    apply (ord_log [TDown z]); auto. now repeat constructor.
  - apply (ord_log [t]); auto. constructor; [|constructor]. destruct t; try exact Logic.I; contradiction.
  - destruct (push_log c m s) as [L|[r L]]; [apply ord_same; trivial; fr1|].
    apply (ord_log [TSend c m (x_size (cf s) m) r]); trivial; [constructor; [exact Logic.I|constructor]|left; fr1].
  - unfold written. destruct (linked s c); [|now apply ord_same]. cbv zeta.
    apply (ord_log [TWrote c z n]); [destruct (_ =? _)%Z; reflexivity|now repeat constructor|left; destruct (_ =? _)%Z; reflexivity].
  - apply ord_soft; [apply soft_conn_reset|fr1].
  - apply ord_soft; [apply soft_ep_reset|fr1].
  - apply ord_soft; [apply soft_addconn|fr1].
  - unfold remove_endpoint. destruct (is_parent s i).
    + destruct (parent s) as [p|] eqn:P; [|now apply ord_same]. destruct (match ex with Some _ => _ | None => _ end); [now apply ord_same|]. cbv zeta. cbn [fst].
      unfold fatal_shutdown, shutdown. cbn [fl_shut emit set_log set_popr set_nst set_parent set_fl_shut fl_act].
      apply (ord_log [TRemoved (e_ref p)]); [|now repeat constructor|right]; destruct (fl_act s) eqn:A; try destruct (fl_shut s); cbn; rewrite ?A; reflexivity.
    + destruct (_ =? _); [now apply ord_same|]. destruct (remove_child _ _ _) as [[] t] eqn:R; [|now apply ord_same].
      destruct (child_at _ _) eqn:C; [|now apply ord_same]. cbn [fst]. apply (ord_log [TRemoved (e_ref e)]); auto. now repeat constructor.
  - apply (ord_log [TRemoved (e_ref p)]); auto. now repeat constructor.
  - apply (ord_log [TRemoved (e_ref e)]); auto. now repeat constructor.
  - unfold purge. generalize (map (fun p : range * ep => e_ref (snd p)) (routes s)). intro l.
    eapply ord_trans; [apply (ord_same s (set_routes [] s)); reflexivity|]. generalize (set_routes [] s).
    induction l as [|x l IH]; intros s1; cbn [fold_left]; [now apply ord_same|].
    eapply ord_trans; [|apply IH]. apply (ord_log [TRemoved x]); auto. now repeat constructor.
  - apply (ord_log [TFault e (e_id (d_ep (es s e))) (x_tol (cf s))]); auto. constructor; [exact Logic.I|constructor].
  - apply (ord_log [TGood e]); auto. constructor; [exact Logic.I|constructor].
Qed.

(** ** Since the last reset *)
(** The entries since the last reset; the log is newest first. *)
Fixpoint life (l : list tr) : list tr :=
  match l with
  | [] => []
  | TReset :: _ => []
  | t :: r => t :: life r
  end.
Lemma life_app l r : Forall noted l -> life (l ++ r) = l ++ life r.
Proof. induction 1 as [|t l N F IH]; [reflexivity|]. destruct t; try contradiction; cbn; now rewrite IH. Qed.
Lemma life_in t l : In t (life l) -> In t l.
Proof. induction l as [|x l IH]; [trivial|]. destruct x; cbn; try tauto; intros [X|X]; auto. Qed.

Definition covers (s : node) (p : ep) : Prop := subnets_contain (e_subs p) (my_subs s) = true.
Definition had_parent (s : node) : Prop :=
  exists e, 0 < e < nexte s /\ In (TAdded e) (life (log s)) /\ covers s (d_ep (es s e)).
Record upok (s : node) : Prop := {
  O_parent : parent s <> None -> had_parent s;
  O_up : In TUp (life (log s)) -> my_id s = 0 \/ x_parent (cf s) = [] \/ had_parent s;
  O_created : nst s = NCreated -> ~ In TUp (life (log s)) }.
Lemma had_more s s' l : grow s s' -> self s' = self s -> life (log s') = l ++ life (log s) -> had_parent s -> had_parent s'.
Proof.
  intros G S L (e & R & A & C). exists e. rewrite L. split; [pose proof (G_e _ _ G); lia|]. split; [apply in_or_app; now right|].
  unfold covers, my_subs in *. now rewrite (G_ep _ _ G e R), S.
Qed.
Lemma upok_more l s s' : grow s s' -> self s' = self s -> cf s' = cf s -> life (log s') = l ++ life (log s) ->
  upok s -> (parent s' <> None -> parent s <> None \/ had_parent s') ->
  (In TUp l -> nst s' <> NCreated /\ (my_id s = 0 \/ x_parent (cf s) = [] \/ had_parent s')) -> upok s'.
Proof.
  intros G S C L [O1 O2 O3] P U. pose proof (had_more s s' l G S L) as H. constructor.
  - intro X. destruct (P X) as [Y|Y]; auto.
  - rewrite L, C. unfold my_id. rewrite S. fold (my_id s). intro X. apply in_app_or in X as [X|X].
    + destruct (U X) as [_ [Y|[Y|Y]]]; auto.
    + destruct (O2 X) as [Y|[Y|Y]]; auto.
  - intros N X. rewrite L in X. apply in_app_or in X as [X|X]; [now apply (U X)|].
    apply O3; [|exact X]. destruct (nst s) eqn:Q; trivial; elim (G_nst _ _ G); trivial; rewrite Q; discriminate.
Qed.
Lemma micro_upok a s s' : Inv s -> micro a s s' -> upok s -> upok s'.
Proof.
  intros I M O. pose proof (micro_grow a s s' I M) as G. pose proof (micro_self a s s' M) as S. pose proof (micro_cf a s s' M) as C.
  destruct (micro_kinds a s s' M) as [((l & L & F) & P)|[(E & N & K)|(x & E & N & A)]].
  - apply (upok_more l s); trivial.
    + rewrite L. now apply life_app.
    + intro X. left. destruct P as [P|P]; congruence.
    + intro X. rewrite Forall_forall in F. elim (F _ X).
  - assert (HP : parent s <> None -> had_parent s') by (intro X; apply (O_parent s O) in X;
      apply (had_more s s' (if fl_act s then [] else [TUp]) G S); trivial; rewrite E; unfold on_actived; cbn [fl_act set_nst]; now destruct (fl_act s)).
    apply (upok_more (if fl_act s then [] else [TUp]) s); trivial.
    + rewrite E. unfold on_actived. cbn [fl_act set_nst]. now destruct (fl_act s).
    + intro X. left. replace (parent s') with (parent s) in X; trivial. rewrite E. unfold on_actived. cbn [fl_act set_nst]. now destruct (fl_act s).
    + intros _. split; [now apply G|]. destruct K as [K|[K|K]]; auto.
  - revert E. unfold add_endpoint. destruct (fl_reset s); cbn [fst]; [intros ->; exact O|].
    destruct (negb (my_id s =? 0) && subnets_contain (e_subs x) (my_subs s)) eqn:SC.
    + apply andb_prop in SC as [_ SC]. destruct (parent s) eqn:P; cbn [fst]; [intros ->; exact O|]. intro E.
      set (l := TAdded (e_ref x) :: (if (nstate_eqb (nst s) NLost || nstate_eqb (nst s) NConnecting) && fl_preg s && negb (fl_act s) then [TUp] else [])).
      assert (L : life (log s') = l ++ life (log s)).
      { rewrite E. unfold l. cbv zeta.
        rewrite (kp_nst_add_ping x), (kp_fl_preg_add_ping x). cbn [nst fl_preg set_parent].
        destruct ((nstate_eqb (nst s) NLost || nstate_eqb (nst s) NConnecting) && fl_preg s); cbn [andb].
        - unfold on_actived. cbn [fl_act set_nst]. rewrite (kp_fl_act_add_ping x). cbn [fl_act set_parent].
          destruct (fl_act s); cbn; now rewrite (kp_log_add_ping x).
        - cbn. now rewrite (kp_log_add_ping x). }
      assert (HP : had_parent s').
      { exists (e_ref x). destruct A as [A1 A2]. split; [pose proof (G_e _ _ G); lia|]. split; [rewrite L; now left|].
        unfold covers, my_subs. now rewrite (G_ep _ _ G _ A1), S, A2. }
      apply (upok_more l s); trivial; [now right|]. intros _. split; [now apply G|auto].
    + destruct (negb (my_id s =? 0) && is_child s (e_id x) && _); cbn [fst]; [intros ->; exact O|]. destruct (insert_child (routes s) x) as [[] t]; cbn [fst]; [|intros ->; exact O].
      intro E. apply (upok_more [TAdded (e_ref x)] s); trivial.
      * rewrite E. rewrite (kp_log_add_ping x). reflexivity.
      * intro X. left. rewrite E in X. rewrite (kp_parent_add_ping x) in X. exact X.
      * intros [X|[]]; discriminate.
Qed.
Lemma estep_upok s s' : Inv s -> estep true s s' -> upok s -> upok s'.
Proof.
  intros I E O. destruct E as [v s _|a s s' M|s P R PI C PE LP|x s N|e s N A].
  - destruct O as [O1 O2 O3]. now constructor.
  - eapply micro_upok; eauto.
  - constructor; cbn; tauto.
  - destruct O as [O1 O2 O3]. constructor; trivial. cbn. intro X. now elim (O3 N).
  - destruct O as [O1 O2 O3]. constructor; trivial; cbn.
    + intro X. now elim (X (proj1 (I_created s I N))).
    + intro X. now elim (O3 N).
Qed.
Theorem reachable_upok s : reachable s -> upok s.
Proof.
  apply reachable_ind; [|exact estep_upok]. constructor; cbn; (congruence || tauto).
Qed.
