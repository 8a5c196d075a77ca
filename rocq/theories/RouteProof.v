From Verif Require Import Base Subnet SubnetSpec SubnetProof Route.
Local Open Scope N_scope.
Ltac Zify.zify_post_hook ::= idtac.

Definition good (r : range) : Prop := 0 < g_min r /\ g_min r <= g_max r.
Definition apart (x y : range) : Prop := g_max x < g_min y \/ g_max y < g_min x.
Definition csep (c : coll) : Prop := ForallOrdPairs (fun a b => g_max (fst a) < g_min (fst b)) c.
Definition cgood (c : coll) : Prop := Forall (fun a => good (fst a)) c.

Lemma apart_disjoint x y : good x -> good y -> (apart x y <-> iv_disjoint (iv x) (iv y)).
Proof.
  intros [Hx Hx'] [Hy Hy']. unfold apart, iv_disjoint, in_iv, iv. cbn [fst snd]. split.
  - intros H id. lia.
  - intros H. destruct (N.le_gt_cases (g_min x) (g_min y)).
    + left. specialize (H (g_min y)). lia.
    + right. specialize (H (g_min x)). lia.
Qed.

Lemma csep_apart c x y : cgood c -> csep c -> In x c -> In y c -> x = y \/ apart (fst x) (fst y).
Proof.
  intros G S. induction S as [|a c Ha Hc IH]; [intros []|].
  inversion_clear G as [|? ? Ga Gc]. rewrite Forall_forall in Ha. intros [<-|Hx] [<-|Hy].
  - now left.
  - right. left. now apply Ha.
  - right. right. now apply Ha.
  - auto.
Qed.

Lemma lower_bound_spec c id : cgood c -> csep c ->
  match lower_bound c (point id) with
  | None => forall x, In x c -> g_max (fst x) < id
  | Some y => In y c /\ id <= g_max (fst y) /\
              forall x, In x c -> g_max (fst x) < id \/ x = y \/ g_max (fst y) < g_min (fst x)
  end.
Proof.
  intros G S. induction S as [|[r e] c Ha Hc IH]; [intros ? []|].
  inversion_clear G as [|? ? Ga Gc]. specialize (IH Gc). cbn [lower_bound fst] in *.
  unfold range_ltb, point. cbn [g_max g_min]. destruct Ga as [Ga Gb].
  assert (E : (if g_max r =? id then id <? g_min r else g_max r <? id) = (g_max r <? id)).
  { destruct (N.eqb_spec (g_max r) id); [|reflexivity].
    destruct (N.ltb_spec id (g_min r)), (N.ltb_spec (g_max r) id); try reflexivity; lia. }
  rewrite E. destruct (N.ltb_spec (g_max r) id) as [H|H].
  - fold (point id). destruct (lower_bound c (point id)) as [y|].
    + destruct IH as (I1 & I2 & I3). split; [now right|]. split; [exact I2|].
      intros x [<-|Hx]; [left; exact H|auto].
    + intros x [<-|Hx]; [exact H|auto].
  - split; [now left|]. cbn [fst]. split; [exact H|]. rewrite Forall_forall in Ha.
    intros x [<-|Hx]; [auto|]. right. right. now apply Ha.
Qed.

Lemma check_conflict_exact c r : cgood c -> csep c -> good r ->
  check_conflict c r = false <-> forall x, In x c -> apart (fst x) r.
Proof.
  intros G S Gr. unfold check_conflict. pose proof (lower_bound_spec c (g_min r) G S) as L.
  unfold cgood in G. rewrite Forall_forall in G. unfold good in *. unfold apart.
  destruct (lower_bound c (point (g_min r))) as [[k e]|].
  - destruct L as (L1 & L2 & L3). cbn [fst] in *. pose proof (G _ L1) as Gk. cbn [fst] in Gk.
    unfold contain_id. destruct (N.eqb_spec (g_min r) 0) as [?|?]; [lia|]. destruct (N.eqb_spec (g_min k) 0) as [?|?]; [lia|].
    rewrite orb_false_iff, !andb_false_iff, !N.leb_gt. split.
    + intros [A B] x Hx. pose proof (G _ Hx) as Gx. destruct (L3 x Hx) as [C|[->|C]]; cbn [fst] in *; lia.
    + intros H. specialize (H _ L1). cbn [fst] in H. lia.
  - split; [|reflexivity]. intros _ x Hx. left. now apply L.
Qed.

Lemma check_conflicts_exact c rs : cgood c -> csep c -> Forall good rs ->
  check_conflicts c rs = false <-> forall r x, In r rs -> In x c -> apart (fst x) r.
Proof.
  intros G S F. unfold check_conflicts. induction F as [|r rs Gr F IH].
  - cbn. split; [intros _ r x []|reflexivity].
  - cbn [existsb]. rewrite orb_false_iff, IH, check_conflict_exact by assumption. split.
    + intros [A B] r' x [<-|Hr] Hx; auto.
    + intros H. split; [intros x Hx; apply H; [now left|exact Hx]|intros r' x Hr Hx; apply H; [now right|exact Hx]].
Qed.

Lemma coll_set_in c k e : cgood c -> good k -> (forall x, In x c -> apart (fst x) k) ->
  forall y, In y (coll_set c k e) <-> (y = (k, e) \/ In y c).
Proof.
  intros G Gk. induction G as [|[r x] c Gr Gc IH]; intros A y.
  - cbn. split; [intros [H|[]]; auto|intros [H|[]]; auto].
  - assert (Ar : apart r k) by (apply (A (r, x)); now left). unfold apart in Ar. unfold good in Gr, Gk. cbn [fst] in Gr.
    assert (IH' : forall y, In y (coll_set c k e) <-> (y = (k, e) \/ In y c)) by (apply IH; intros z Hz; apply A; now right).
    cbn [coll_set]. unfold range_ltb.
    destruct (N.eqb_spec (g_max r) (g_max k)); [lia|]. destruct (N.eqb_spec (g_max k) (g_max r)); [lia|].
    destruct (N.ltb_spec (g_max r) (g_max k)) as [H|H].
    + cbn [In]. rewrite IH'. intuition.
    + destruct (N.ltb_spec (g_max k) (g_max r)); [|lia]. cbn [In]. intuition.
Qed.
Lemma coll_set_good c k e : cgood c -> good k -> cgood (coll_set c k e).
Proof.
  intros G Gk. induction G as [|[r x] c Gr Gc IH]; [repeat constructor; apply Gk|].
  cbn [coll_set]. destruct (range_ltb r k); [constructor; auto|]. destruct (range_ltb k r); constructor; auto.
Qed.
Lemma coll_set_sep c k e : cgood c -> csep c -> good k -> (forall x, In x c -> apart (fst x) k) -> csep (coll_set c k e).
Proof.
  intros G S Gk. induction S as [|[r x] c Hr Hc IH]; intros A.
  - repeat constructor.
  - inversion_clear G as [|? ? Gr Gc].
    assert (Ar : apart r k) by (apply (A (r, x)); now left). unfold apart in Ar. unfold good in Gr, Gk. cbn [fst] in Gr.
    assert (A' : forall z, In z c -> apart (fst z) k) by (intros z Hz; apply A; now right).
    cbn [coll_set]. unfold range_ltb.
    destruct (N.eqb_spec (g_max r) (g_max k)); [lia|]. destruct (N.eqb_spec (g_max k) (g_max r)); [lia|].
    rewrite Forall_forall in Hr. cbn [fst] in Hr.
    destruct (N.ltb_spec (g_max r) (g_max k)) as [H|H].
    + constructor; [|now apply IH]. rewrite Forall_forall. intros y Hy. apply coll_set_in in Hy; auto.
      destruct Hy as [->|Hy]; cbn [fst]; [lia|now apply Hr].
    + destruct (N.ltb_spec (g_max k) (g_max r)); [|lia]. constructor; [|constructor; [rewrite Forall_forall; exact Hr|exact Hc]].
      constructor; cbn [fst]; [lia|]. rewrite Forall_forall. intros y Hy. specialize (Hr y Hy). lia.
Qed.

Lemma set_all rs e : forall c, cgood c -> csep c -> Forall good rs -> ForallOrdPairs apart rs ->
  (forall r x, In r rs -> In x c -> apart (fst x) r) ->
  let c' := fold_left (fun c r => coll_set c r e) rs c in
  cgood c' /\ csep c' /\ forall y, In y c' <-> (In y c \/ (snd y = e /\ In (fst y) rs)).
Proof.
  induction rs as [|r rs IH]; intros c G S F O A; cbv zeta.
  - cbn. repeat split; auto. intros [H|[_ []]]; auto.
  - inversion_clear F as [|? ? Gr F']. inversion_clear O as [|? ? Or O']. cbn [fold_left].
    assert (Ar : forall x, In x c -> apart (fst x) r) by (intros x Hx; apply A; [now left|exact Hx]).
    destruct (IH (coll_set c r e)) as (G' & S' & I').
    + now apply coll_set_good.
    + now apply coll_set_sep.
    + exact F'.
    + exact O'.
    + intros r' x Hr Hx. apply coll_set_in in Hx; auto. destruct Hx as [->|Hx].
      * cbn [fst]. rewrite Forall_forall in Or. now apply Or.
      * apply A; [now right|exact Hx].
    + split; [exact G'|]. split; [exact S'|]. intros y. rewrite I', coll_set_in by auto. cbn [In]. destruct y as [yr ye]. cbn [fst snd].
      split.
      * intros [[H|H]|H]; [injection H as <- <-; tauto|tauto|tauto].
      * intros [H|[H1 [H2|H2]]]; [tauto|subst; tauto|tauto].
Qed.

Lemma coll_erase_in c k e : cgood c -> csep c -> In (k, e) c ->
  forall y, In y (coll_erase c k) <-> (In y c /\ y <> (k, e)).
Proof.
  intros G S. induction S as [|[r x] c Hr Hc IH]; [intros []|].
  inversion_clear G as [|? ? Gr Gc]. unfold good in Gr. cbn [fst] in *. rewrite Forall_forall in Hr.
  intros Hin y. cbn [coll_erase]. unfold range_ltb. destruct Hin as [E|Hin].
  - injection E as -> ->. rewrite !N.eqb_refl, N.ltb_irrefl. split.
    + intros H. split; [now right|]. intros ->. specialize (Hr _ H). cbn [fst] in Hr. lia.
    + intros [[<-|H] N]; [contradiction|exact H].
  - specialize (Hr _ Hin) as Hlt. cbn [fst] in Hlt.
    assert (Gk : good k) by (unfold cgood in Gc; rewrite Forall_forall in Gc; exact (Gc _ Hin)). unfold good in Gk.
    destruct (N.eqb_spec (g_max r) (g_max k)); [lia|]. destruct (N.ltb_spec (g_max r) (g_max k)); [|lia].
    cbn [In]. rewrite (IH Gc Hin). split.
    + intros [<-|[H9 N9]]; [|tauto]. split; [now left|]. intros E. injection E as -> ->. lia.
    + tauto.
Qed.
Lemma coll_erase_sub c k x : In x (coll_erase c k) -> In x c.
Proof.
  induction c as [|[r y] c IH]; [intros []|]. cbn [coll_erase]. destruct (range_ltb r k).
  - intros [<-|H]; [now left|right; auto].
  - destruct (range_ltb k r); [auto|]. intros H; now right.
Qed.
Lemma coll_erase_good c k : cgood c -> cgood (coll_erase c k).
Proof. unfold cgood. rewrite !Forall_forall. intros H x Hx. apply H. eapply coll_erase_sub; eauto. Qed.
Lemma coll_erase_sep c k : csep c -> csep (coll_erase c k).
Proof.
  intros S. induction S as [|[r x] c Hr Hc IH]; [constructor|]. cbn [coll_erase].
  destruct (range_ltb r k).
  - constructor; [|exact IH]. rewrite Forall_forall in *. intros y Hy. apply Hr. eapply coll_erase_sub; eauto.
  - destruct (range_ltb k r); [constructor; auto|exact Hc].
Qed.

Lemma erase_all rs e : forall c, cgood c -> csep c -> Forall good rs -> ForallOrdPairs apart rs ->
  (forall r, In r rs -> In (r, e) c) ->
  let c' := fold_left coll_erase rs c in
  cgood c' /\ csep c' /\ forall y, In y c' <-> (In y c /\ ~ (snd y = e /\ In (fst y) rs)).
Proof.
  induction rs as [|r rs IH]; intros c G S F O A; cbv zeta.
  - cbn. repeat split; auto; try tauto.
  - inversion_clear F as [|? ? Gr F']. inversion_clear O as [|? ? Or O']. cbn [fold_left].
    assert (Ar : In (r, e) c) by (apply A; now left).
    destruct (IH (coll_erase c r)) as (G' & S' & I').
    + now apply coll_erase_good.
    + now apply coll_erase_sep.
    + exact F'.
    + exact O'.
    + intros r' Hr. rewrite coll_erase_in; eauto. split; [apply A; now right|]. intros E. injection E as ->.
      rewrite Forall_forall in Or. specialize (Or _ Hr). unfold apart in Or. unfold good in Gr. lia.
    + split; [exact G'|]. split; [exact S'|]. intros [yr ye]. rewrite I', (coll_erase_in c r e) by auto. cbn [In fst snd].
      split.
      * intros [[H1 H2] H3]. split; [exact H1|]. intros [-> [->|H4]]; [now apply H2|tauto].
      * intros [H1 H2]. repeat split; auto; [|tauto]. intros E. injection E as -> ->. apply H2. auto.
Qed.

(** Refinement of the table of live endpoints. *)
Definition good_ep (e : ep) : Prop :=
  Forall good (e_subs e) /\ ForallOrdPairs apart (e_subs e) /\ exists r, In r (e_subs e) /\ g_min r <= e_id e <= g_max r.
Definition good_op (o : rop) : Prop := match o with RIns e => good_ep e | _ => True end.
Definition abs (e : ep) : sep := {| p_ref := e_ref e; p_id := e_id e; p_ivs := map iv (e_subs e) |}.
Definition abs_op (o : rop) : top :=
  match o with RIns e => Ins (abs e) | RRem id ex => Rem id ex | RAsk id => Ask id end.
Definition abs_out (o : rout) : tout := match o with RFlag b => Flag b | RFound x => Found x end.

Record Sim (c : coll) (live : list ep) : Prop := {
  sim_good : cgood c;
  sim_sep : csep c;
  sim_in : forall r e, In (r, e) c <-> (In e live /\ In r (e_subs e));
  sim_ep : Forall good_ep live
}.

Lemma apart_overlap x y : good x -> good y -> (apart x y <-> overlapb (iv x) (iv y) = false).
Proof. unfold good, apart, overlapb, iv. cbn [fst snd]. rewrite N.leb_gt. lia. Qed.

Lemma clash_spec x y : Forall good (e_subs x) -> Forall good (e_subs y) ->
  (clashb (abs x) (abs y) = false <-> forall r s, In r (e_subs x) -> In s (e_subs y) -> apart r s).
Proof.
  intros Gx Gy. unfold clashb, abs. cbn [p_ivs]. rewrite Forall_forall in Gx, Gy.
  destruct (existsb _ _) eqn:E.
  - split; [discriminate|]. intros H. exfalso. apply existsb_exists in E. destruct E as (i & Hi & E).
    apply existsb_exists in E. destruct E as (j & Hj & E). apply in_map_iff in Hi, Hj.
    destruct Hi as (r & <- & Hr). destruct Hj as (s & <- & Hs).
    specialize (H r s Hr Hs). apply apart_overlap in H; auto. congruence.
  - split; [|reflexivity]. intros _ r s Hr Hs. apply apart_overlap; auto.
    destruct (overlapb (iv r) (iv s)) eqn:O; [|reflexivity]. exfalso.
    rewrite <- not_true_iff_false in E. apply E. apply existsb_exists. exists (iv r). split; [now apply in_map|].
    apply existsb_exists. exists (iv s). split; [now apply in_map|exact O].
Qed.

Lemma apart_sym x y : apart x y -> apart y x.
Proof. unfold apart. tauto. Qed.

Lemma sim_conflicts c live e : Sim c live -> good_ep e ->
  check_conflicts c (e_subs e) = existsb (clashb (abs e)) (map abs live).
Proof.
  intros [G S I L] [Ge _]. apply eq_true_iff_eq. rewrite <- !not_false_iff_true. apply not_iff_compat.
  rewrite check_conflicts_exact by assumption. rewrite Forall_forall in L. split.
  - intros H. destruct (existsb _ _) eqn:E; [|reflexivity]. exfalso. apply existsb_exists in E.
    destruct E as (y & Hy & E). apply in_map_iff in Hy. destruct Hy as (e' & <- & He').
    assert (X : clashb (abs e) (abs e') = false); [|congruence]. apply clash_spec; [exact Ge|apply (L _ He')|].
    intros r s Hr Hs. apply apart_sym. apply (H r (s, e') Hr). apply I. auto.
  - intros H r [s e'] Hr Hx. cbn [fst]. apply I in Hx. destruct Hx as [He' Hs].
    assert (X : clashb (abs e) (abs e') = false).
    { destruct (clashb (abs e) (abs e')) eqn:E; [|reflexivity]. exfalso. rewrite <- not_true_iff_false in H. apply H.
      apply existsb_exists. exists (abs e'). split; [now apply in_map|exact E]. }
    apply apart_sym. apply (proj1 (clash_spec e e' Ge (proj1 (L _ He'))) X); auto.
Qed.

(** At most one live endpoint serves an id. *)
Lemma sim_unique c live x y id : Sim c live -> In x live -> In y live ->
  servesb id (abs x) = true -> servesb id (abs y) = true -> x = y.
Proof.
  intros [G S I L] Hx Hy Sx Sy. unfold servesb in *. apply existsb_exists in Sx, Sy.
  destruct Sx as (i & Hi & Ei). destruct Sy as (j & Hj & Ej). unfold abs in Hi, Hj. cbn [p_ivs] in Hi, Hj.
  apply in_map_iff in Hi, Hj. destruct Hi as (r & <- & Hr). destruct Hj as (s & <- & Hs).
  unfold in_ivb, iv in *. cbn [fst snd] in *. rewrite andb_true_iff, !N.leb_le in *.
  destruct (csep_apart c (r, x) (s, y) G S) as [E|A]; [apply I; auto|apply I; auto| |].
  - congruence.
  - unfold apart in A. cbn [fst] in A. lia.
Qed.

Lemma good_ep_serves e : good_ep e -> servesb (e_id e) (abs e) = true.
Proof.
  intros (_ & _ & r & Hr & H). unfold servesb. apply existsb_exists. exists (iv r). split; [now apply in_map|].
  unfold in_ivb, iv. cbn [fst snd]. rewrite andb_true_iff, !N.leb_le. exact H.
Qed.
Lemma serves_in e id : servesb id (abs e) = true <-> exists r, In r (e_subs e) /\ g_min r <= id <= g_max r.
Proof.
  unfold servesb. rewrite existsb_exists. split.
  - intros (i & Hi & H). apply in_map_iff in Hi. destruct Hi as (r & <- & Hr). exists r. split; [exact Hr|].
    unfold in_ivb, iv in H. cbn [fst snd] in H. now rewrite andb_true_iff, !N.leb_le in H.
  - intros (r & Hr & H). exists (iv r). split; [now apply in_map|]. unfold in_ivb, iv. cbn [fst snd]. now rewrite andb_true_iff, !N.leb_le.
Qed.

Lemma sim_lookup c live id e : Sim c live -> In e live -> servesb id (abs e) = true ->
  exists r, lower_bound c (point id) = Some (r, e) /\ g_min r <= id <= g_max r.
Proof.
  intros [G S I L] He H. apply serves_in in H. destruct H as (r & Hr & H).
  assert (Hc : In (r, e) c) by (apply I; auto).
  pose proof (lower_bound_spec c id G S) as LB. destruct (lower_bound c (point id)) as [[k x]|].
  - destruct LB as (L1 & L2 & L3). destruct (L3 _ Hc) as [C|[C|C]]; cbn [fst] in *; [lia| |lia].
    exists r. split; [now rewrite C|exact H].
  - specialize (LB _ Hc). cbn [fst] in LB. lia.
Qed.

Lemma sim_find c live id : Sim c live ->
  option_map e_ref (find_route c id) = option_map p_ref (find (servesb id) (map abs live)).
Proof.
  intros SIM. destruct (find (servesb id) (map abs live)) as [s|] eqn:F.
  - apply find_some in F. destruct F as [F1 F2]. apply in_map_iff in F1. destruct F1 as (e & <- & He).
    destruct (sim_lookup c live id e SIM He F2) as (r & E & H). unfold find_route. rewrite E.
    destruct (e_id e =? id); [reflexivity|]. unfold contain_id.
    assert (Gr : good r).
    { pose proof (lower_bound_spec c id (sim_good _ _ SIM) (sim_sep _ _ SIM)) as LB. rewrite E in LB.
      destruct LB as [LB _]. pose proof (sim_good _ _ SIM) as G. unfold cgood in G. rewrite Forall_forall in G. exact (G _ LB). }
    unfold good in Gr. destruct (N.eqb_spec id 0); [lia|].
    destruct (N.leb_spec id (g_max r)); [|lia]. destruct (N.leb_spec (g_min r) id); [reflexivity|lia].
  - unfold find_route. pose proof (lower_bound_spec c id (sim_good _ _ SIM) (sim_sep _ _ SIM)) as LB.
    destruct (lower_bound c (point id)) as [[k x]|]; [|reflexivity]. destruct LB as (L1 & _ & _).
    apply (sim_in _ _ SIM) in L1. destruct L1 as [Hx Hk].
    assert (Nf : servesb id (abs x) = false).
    { apply (find_none _ _ F). now apply in_map. }
    destruct (N.eqb_spec (e_id x) id) as [E|E].
    + pose proof (sim_ep _ _ SIM) as L. rewrite Forall_forall in L. pose proof (good_ep_serves x (L x Hx)) as P. congruence.
    + destruct (contain_id k id) eqn:C; [|reflexivity]. exfalso. unfold contain_id in C.
      destruct (id =? 0); [discriminate|]. apply andb_prop in C. rewrite !N.leb_le in C.
      assert (P : servesb id (abs x) = true) by (apply serves_in; exists k; split; [exact Hk|lia]). congruence.
Qed.

Lemma sim_step c live o : Sim c live -> good_op o ->
  exists live', abs_out (fst (route_step c o)) = fst (table_step (map abs live) (abs_op o)) /\
    snd (table_step (map abs live) (abs_op o)) = map abs live' /\ Sim (snd (route_step c o)) live'.
Proof.
  intros SIM Go. destruct o as [e|id ex|id]; cbn [route_step table_step abs_op].
  - unfold insert_child. cbn [good_op] in Go. rewrite (sim_conflicts c live e SIM Go).
    destruct (existsb (clashb (abs e)) (map abs live)) eqn:E; cbn [fst snd abs_out].
    + exists live. auto.
    + exists (e :: live). split; [reflexivity|]. split; [reflexivity|].
      rewrite <- (sim_conflicts c live e SIM Go) in E. destruct SIM as [G S I L]. destruct Go as (G1 & G2 & G3).
      rewrite check_conflicts_exact in E by assumption.
      destruct (set_all (e_subs e) e c G S G1 G2 E) as (G' & S' & I').
      constructor; [exact G'|exact S'| |constructor; [split; auto|exact L]].
      intros r x. rewrite I', I. cbn [fst snd In]. split.
      * intros [[A B]|[-> B]]; auto.
      * intros [[->|A] B]; auto.
  - unfold remove_child. pose proof (lower_bound_spec c id (sim_good _ _ SIM) (sim_sep _ _ SIM)) as LB.
    pose proof (sim_ep _ _ SIM) as L. rewrite Forall_forall in L.
    destruct (existsb (is_target id ex) (map abs live)) eqn:E.
    + apply existsb_exists in E. destruct E as (s & Hs & T). apply in_map_iff in Hs. destruct Hs as (e & <- & He).
      pose proof T as T'. unfold is_target in T. apply andb_prop in T. destruct T as [T1 T2]. cbn [abs p_id p_ref] in T1, T2. apply N.eqb_eq in T1.
      destruct (sim_lookup c live id e SIM He) as (r & Er & _); [rewrite <- T1; now apply good_ep_serves, L|].
      rewrite Er, T1, N.eqb_refl. cbn [negb].
      assert (X : match ex with Some x => negb (e_ref e =? x) | None => false end = false).
      { destruct ex as [x|]; [rewrite T2; reflexivity|reflexivity]. }
      rewrite X. cbn [fst snd abs_out].
      exists (filter (fun x => negb (is_target id ex (abs x))) live). split; [reflexivity|]. split.
      { clear. induction live as [|a live IH]; [reflexivity|]. cbn. destruct (is_target id ex (abs a)); cbn; [auto|now f_equal]. }
      destruct (L e He) as (G1 & G2 & G3).
      destruct (erase_all (e_subs e) e c (sim_good _ _ SIM) (sim_sep _ _ SIM) G1 G2) as (G' & S' & I').
      { intros r' Hr'. apply (sim_in _ _ SIM). auto. }
      assert (U : forall x, In x live -> is_target id ex (abs x) = true -> x = e).
      { intros x Hx Tx. unfold is_target in Tx. apply andb_prop in Tx. destruct Tx as [Tx _]. cbn in Tx. apply N.eqb_eq in Tx.
        apply (sim_unique c live x e id SIM Hx He); [rewrite <- Tx; now apply good_ep_serves, L|rewrite <- T1; now apply good_ep_serves, L]. }
      constructor; [exact G'|exact S'| |].
      * intros r' x. rewrite I', (sim_in _ _ SIM). cbn [fst snd]. rewrite filter_In, negb_true_iff. split.
        -- intros [[A B] C]. repeat split; auto. destruct (is_target id ex (abs x)) eqn:Tx; [|reflexivity].
           exfalso. apply C. pose proof (U x A Tx) as ->. auto.
        -- intros [[A T] B]. repeat split; auto. intros [-> _]. congruence.
      * rewrite Forall_forall. intros x Hx. apply filter_In in Hx. now apply L.
    + assert (H : forall e, In e live -> is_target id ex (abs e) = false).
      { intros e He. destruct (is_target id ex (abs e)) eqn:T; [|reflexivity]. exfalso. rewrite <- not_true_iff_false in E. apply E.
        apply existsb_exists. exists (abs e). split; [now apply in_map|exact T]. }
      assert (R : (match lower_bound c (point id) with
                   | Some (_, e) => if negb (e_id e =? id) then (false, c)
                       else if match ex with Some x => negb (e_ref e =? x) | None => false end then (false, c)
                       else (true, fold_left coll_erase (e_subs e) c)
                   | None => (false, c) end) = (false, c)).
      { destruct (lower_bound c (point id)) as [[k e]|]; [|reflexivity]. destruct LB as (L1 & _).
        apply (sim_in _ _ SIM) in L1. specialize (H e (proj1 L1)). unfold is_target in H. cbn [abs p_id p_ref] in H.
        destruct (e_id e =? id); [|reflexivity]. cbn [negb andb] in *. destruct ex; [|discriminate]. rewrite H. reflexivity. }
      rewrite R. exists live. auto.
  - cbn [fst snd abs_out]. exists live. split; [f_equal; now apply sim_find|]. auto.
Qed.

Lemma sim_run os : forall c live, Sim c live -> Forall good_op os ->
  exists live', map abs_out (fst (route_run c os)) = fst (table_run (map abs live) (map abs_op os)) /\
    snd (table_run (map abs live) (map abs_op os)) = map abs live' /\ Sim (snd (route_run c os)) live'.
Proof.
  induction os as [|o os IH]; intros c live SIM F.
  - exists live. auto.
  - inversion_clear F as [|? ? Fo Fos]. destruct (sim_step c live o SIM Fo) as (l1 & A & B & C).
    cbn [route_run table_run map]. destruct (route_step c o) as [b c1]. destruct (table_step (map abs live) (abs_op o)) as [b' s1].
    cbn [fst snd] in A, B, C. subst s1. destruct (IH c1 l1 C Fos) as (l2 & A2 & B2 & C2). exists l2.
    destruct (route_run c1 os) as [bs c2]. destruct (table_run (map abs l1) (map abs_op os)) as [bs' s2]. cbn [fst snd] in *.
    cbn [map]. split; [congruence|auto].
Qed.

Lemma sim_empty : Sim [] [].
Proof. constructor; try constructor; cbn; tauto. Qed.

(** The endpoints built by [endpoint::create] are good when the configured
    ranges are disjoint and none starts at 0. *)
Lemma conf_ranges_wf id cs : forall l auto, conf_ranges id cs = Some (l, auto) ->
  Forall wf l /\ (forall i, rs_in l i <-> exists c, In c cs /\ in_conf (if c_prefix c =? 0 then id else c_prefix c, c_mask c) i).
Proof.
  induction cs as [|c cs IH]; intros l auto E; cbn [conf_ranges] in E.
  - injection E as <- <-. split; [constructor|]. intros i. split; [intros (? & [] & _)|intros (? & [] & _)].
  - destruct (conf_ranges id cs) as [[l0 a0]|]; [|discriminate]. destruct (IH l0 a0 eq_refl) as [W I].
    assert (H : exists x, l = x :: l0 /\ mk_range (if c_prefix c =? 0 then id else c_prefix c) (c_mask c) = Some x).
    { destruct (c_prefix c =? 0).
      - destruct (mk_range id (c_mask c)) as [x|]; [|discriminate]. injection E as <- <-. eauto.
      - destruct (mk_range (c_prefix c) (c_mask c)) as [x|]; [|discriminate].
        destruct (conf_contain c id); [|discriminate]. injection E as <- <-. eauto. }
    destruct H as (x & -> & M). destruct (mk_range_wf _ _ _ M) as (Wx & _ & _ & Hmin & Hmax).
    split; [now constructor|]. intros i. rewrite rs_in_cons, I, Hmin, Hmax, <- div_block. unfold in_conf. cbn [fst snd]. split.
    + intros [H|(c' & H1 & H2)]; [exists c; split; [now left|exact H]|exists c'; split; [now right|exact H2]].
    + intros (c' & [<-|H1] & H2); [now left|right; eauto].
Qed.

Lemma conf_ranges_auto id cs : id <> 0 -> forall l auto, conf_ranges id cs = Some (l, auto) ->
  (auto = false <-> exists c, In c cs /\ in_conf (if c_prefix c =? 0 then id else c_prefix c, c_mask c) id).
Proof.
  intros Hid. induction cs as [|c cs IH]; intros l auto E; cbn [conf_ranges] in E.
  - injection E as <- <-. split; [discriminate|intros (? & [] & _)].
  - destruct (conf_ranges id cs) as [[l0 a0]|]; [|discriminate]. specialize (IH l0 a0 eq_refl).
    destruct (N.eqb_spec (c_prefix c) 0) as [Hz|Hz].
    + destruct (mk_range id (c_mask c)) as [x|]; [|discriminate]. injection E as <- <-. split; [|reflexivity].
      intros _. exists c. split; [now left|]. rewrite Hz. cbn. reflexivity.
    + destruct (mk_range (c_prefix c) (c_mask c)) as [x|] eqn:M; [|discriminate].
      assert (Hb : c_mask c <= 30) by (unfold mk_range in M; destruct (N.leb_spec (c_mask c) 30); [assumption|discriminate]).
      destruct (conf_contain_spec c id Hb) as (k & Ek & Hk). rewrite Ek in E. injection E as <- <-.
      rewrite andb_false_iff, negb_false_iff, Hk, IH. split.
      * intros [(c' & A & B)|[_ B]]; [exists c'; split; [now right|exact B]|].
        exists c. split; [now left|]. destruct (N.eqb_spec (c_prefix c) 0); [contradiction|exact B].
      * intros (c' & [<-|A] & B); [right|left; eauto]. split; [exact Hid|]. destruct (N.eqb_spec (c_prefix c) 0); [contradiction|exact B].
Qed.

Lemma endpoint_ranges_spec id cs l : id <> 0 -> endpoint_ranges id cs = Some l ->
  Forall wf l /\ forall i, rs_in l i <-> (i = id \/ exists c, In c cs /\ in_conf (if c_prefix c =? 0 then id else c_prefix c, c_mask c) i).
Proof.
  intros Hid E. unfold endpoint_ranges in E. destruct (conf_ranges id cs) as [[l0 auto]|] eqn:C; [|discriminate].
  destruct (conf_ranges_wf id cs l0 auto C) as [W I]. pose proof (conf_ranges_auto id cs Hid l0 auto C) as A.
  destruct auto.
  - destruct (mk_range id 0) as [x|] eqn:M; [|discriminate]. injection E as <-.
    destruct (mk_range_wf _ _ _ M) as (Wx & _ & _ & Hmin & Hmax). change (2 ^ 0) with 1 in *. rewrite N.div_1_r, N.mul_1_r in Hmin, Hmax.
    split; [apply Forall_app; split; [exact W|repeat constructor; apply Wx]|]. intros i. rewrite <- I. unfold rs_in. split.
    + intros (r & Hr & H). apply in_app_iff in Hr. destruct Hr as [Hr|[<-|[]]]; [right; eauto|left; lia].
    + intros [->|(r & Hr & H)]; [exists x; split; [apply in_app_iff; right; now left|lia]|exists r; split; [apply in_app_iff; now left|exact H]].
  - injection E as <-. split; [exact W|]. intros i. rewrite I. split; [tauto|]. intros [->|H]; [|exact H]. now apply A.
Qed.

Lemma endpoint_subnets_spec id cs l : id <> 0 -> endpoint_subnets id cs = Some l ->
  Forall wf l /\ forall i, rs_in l i <-> (i = id \/ exists c, In c cs /\ in_conf (if c_prefix c =? 0 then id else c_prefix c, c_mask c) i).
Proof.
  intros Hid E. unfold endpoint_subnets in E. destruct (endpoint_ranges id cs) as [l0|] eqn:R; [|discriminate].
  destruct (endpoint_ranges_spec id cs l0 Hid R) as [W I].
  destruct (merges_to_union l0 l W (merge_subnets_merges _ _ E)) as [W' I']. split; [exact W'|].
  intros i. now rewrite I', I.
Qed.

Lemma endpoint_ranges_made id cs l : endpoint_ranges id cs = Some l -> Forall made l.
Proof.
  intros E. unfold endpoint_ranges in E. destruct (conf_ranges id cs) as [[l0 auto]|] eqn:C; [|discriminate].
  assert (H : Forall made l0).
  { clear E. revert l0 auto C. induction cs as [|c cs IH]; intros l0 auto C; cbn [conf_ranges] in C.
    - injection C as <- <-. constructor.
    - destruct (conf_ranges id cs) as [[l1 a1]|]; [|discriminate]. specialize (IH l1 a1 eq_refl).
      destruct (c_prefix c =? 0).
      + destruct (mk_range id (c_mask c)) as [x|] eqn:M; [|discriminate]. injection C as <- <-. constructor; [eapply mk_range_made; eauto|exact IH].
      + destruct (mk_range (c_prefix c) (c_mask c)) as [x|] eqn:M; [|discriminate].
        destruct (conf_contain c id); [|discriminate]. injection C as <- <-. constructor; [eapply mk_range_made; eauto|exact IH]. }
  destruct auto.
  - destruct (mk_range id 0) as [x|] eqn:M; [|discriminate]. injection E as <-. apply Forall_app. split; [exact H|].
    repeat constructor. eapply mk_range_made; eauto.
  - injection E as <-. exact H.
Qed.
Lemma endpoint_subnets_made id cs l : endpoint_subnets id cs = Some l -> Forall made l.
Proof.
  intros E. unfold endpoint_subnets in E. destruct (endpoint_ranges id cs) as [l0|] eqn:R; [|discriminate].
  apply (merges_to_made l0 l (endpoint_ranges_made _ _ _ R) (merge_subnets_merges _ _ E)).
Qed.

Lemma made_conf r : made r -> forall i, in_iv (iv r) i <-> in_conf (g_prefix r, g_mask r) i.
Proof.
  intros M i. destruct (mk_range_wf _ _ _ M) as (_ & _ & _ & Hmin & Hmax).
  unfold in_iv, iv, in_conf. cbn [fst snd]. rewrite div_block, Hmin, Hmax. reflexivity.
Qed.

(** Registration rebuilds the same id set when no announced prefix is 0. *)
Lemma peer_same_set id cs l l' : id <> 0 -> endpoint_subnets id cs = Some l -> Forall (fun r => g_prefix r <> 0) l ->
  peer_subnets id (announce l) = Some l' -> forall i, rs_in l' i <-> rs_in l i.
Proof.
  intros Hid E Z P i. destruct (endpoint_subnets_spec id cs l Hid E) as [W I].
  pose proof (endpoint_subnets_made id cs l E) as M. rewrite Forall_forall in M, Z.
  unfold peer_subnets in P. destruct (reg_confs id (announce l)) as [cs'|] eqn:R; [|discriminate].
  destruct (endpoint_subnets_spec id cs' l' Hid P) as [_ I'].
  assert (Hown : rs_in l id) by (apply I; now left).
  assert (Hset : forall j, (j = id \/ exists c, In c cs' /\ in_conf (if c_prefix c =? 0 then id else c_prefix c, c_mask c) j)
                 <-> (j = id \/ exists c, In c (announce l) /\ in_conf (if c_prefix c =? 0 then id else c_prefix c, c_mask c) j)).
  { intros j. unfold reg_confs in R. destruct (existsb_opt _ _) as [[|]|]; [injection R as <-; reflexivity| |discriminate].
    injection R as <-. split.
    - intros [->|(c & Hc & H)]; [now left|]. apply in_app_iff in Hc. destruct Hc as [Hc|[<-|[]]]; [right; eauto|left].
      cbn [c_prefix c_mask] in H. unfold in_conf in H. cbn [fst snd] in H. change (2 ^ 0) with 1 in H. rewrite !N.div_1_r in H.
      destruct (id =? 0); exact H.
    - intros [->|(c & Hc & H)]; [now left|]. right. exists c. split; [apply in_app_iff; now left|exact H]. }
  rewrite I', Hset. split.
  - intros [->|(c & Hc & H)]; [exact Hown|]. unfold announce in Hc. apply in_map_iff in Hc. destruct Hc as (r & <- & Hr).
    cbn [c_prefix c_mask] in H. destruct (N.eqb_spec (g_prefix r) 0) as [C|_]; [exfalso; now apply (Z r Hr)|].
    exists r. split; [exact Hr|]. now apply (made_conf r (M r Hr)).
  - intros (r & Hr & H). right. exists {| c_prefix := g_prefix r; c_mask := g_mask r |}.
    split; [unfold announce; apply in_map_iff; eauto|]. cbn [c_prefix c_mask].
    destruct (N.eqb_spec (g_prefix r) 0) as [C|_]; [exfalso; now apply (Z r Hr)|]. now apply (made_conf r (M r Hr)).
Qed.

(** A child that passes the containment test only serves ids of its parent. *)
Lemma child_within self id cs l : Forall wf self -> id <> 0 ->
  child_accepted self id cs = Some true -> peer_subnets id cs = Some l ->
  forall i, rs_in l i -> rs_in self i.
Proof.
  intros W Hid A P i Hi. unfold child_accepted, peer_subnets in *.
  destruct (reg_confs id cs) as [cs'|] eqn:R; [|discriminate]. injection A as A.
  destruct (endpoint_subnets_spec id cs' l Hid P) as [_ I]. apply I in Hi.
  assert (Z : Forall (fun c => c_prefix c <> 0) cs').
  { rewrite subnets_contain_conf_unfold, forallb_forall in A. rewrite Forall_forall. intros c Hc. specialize (A c Hc).
    apply existsb_exists in A. destruct A as (p & _ & A). apply andb_prop in A. rewrite contain_id_iff in A. tauto. }
  rewrite conf_contain_iff in A by assumption.
  assert (K : exists c, In c cs' /\ in_conf (c_prefix c, c_mask c) id).
  { unfold reg_confs in R. destruct (existsb_opt _ _) as [[|]|] eqn:X; [|injection R as <-|discriminate].
    - injection R as <-. clear -X. induction cs as [|c cs IH]; cbn in X; [discriminate|].
      destruct (conf_contain c id) as [[|]|] eqn:Y; [|destruct (IH X) as (c' & H1 & H2); exists c'; split; [now right|exact H2]|discriminate].
      exists c. split; [now left|]. assert (Hm : c_mask c <= 30).
      { unfold conf_contain in Y. destruct (id =? 0); [discriminate|]. destruct (N.leb_spec (c_mask c) 30); [assumption|discriminate]. }
      destruct (conf_contain_spec c id Hm) as (k & Ek & Hk). rewrite Y in Ek. injection Ek as <-. now apply Hk.
    - exists {| c_prefix := id; c_mask := 0 |}. split; [apply in_app_iff; right; now left|reflexivity]. }
  assert (H : exists c, In c cs' /\ in_conf (c_prefix c, c_mask c) i).
  { destruct Hi as [->|(c & Hc & H)]; [exact K|]. exists c. split; [exact Hc|].
    rewrite Forall_forall in Z. destruct (N.eqb_spec (c_prefix c) 0) as [C|_]; [exfalso; now apply (Z c Hc)|exact H]. }
  destruct H as (c & Hc & H). destruct (A c Hc) as (p & Hp & Hin). exists p. split; [exact Hp|]. apply (Hin i H).
Qed.

Lemma rs_in_ivs l id : rs_in l id <-> in_ivs (map iv l) id.
Proof.
  unfold rs_in, in_ivs. split.
  - intros (r & H & Hi). exists (iv r). split; [now apply in_map|exact Hi].
  - intros (i & H & Hi). apply in_map_iff in H. destruct H as (r & <- & H). eauto.
Qed.
Lemma FOP_map {A B} (f : A -> B) (R : B -> B -> Prop) l : ForallOrdPairs R (map f l) <-> ForallOrdPairs (fun x y => R (f x) (f y)) l.
Proof.
  induction l as [|x l IH]; cbn; [split; constructor|]. split; intros H; inversion_clear H as [|? ? H1 H2]; constructor.
  - now rewrite Forall_map in H1.
  - now apply IH.
  - now rewrite Forall_map.
  - now apply IH.
Qed.
Lemma FOP_impl {A} (R S : A -> A -> Prop) (P : A -> Prop) l : (forall x y, P x -> P y -> R x y -> S x y) -> Forall P l ->
  ForallOrdPairs R l -> ForallOrdPairs S l.
Proof.
  intros H F O. induction O as [|x l Hx Hl IH]; [constructor|]. inversion_clear F as [|? ? Px Pl].
  constructor; [|auto]. rewrite Forall_forall in *. auto.
Qed.

(** An endpoint as the routing table needs it, in terms of the specification. *)
Definition well_configured (e : ep) : Prop :=
  Forall (fun r => 0 < g_min r /\ g_min r <= g_max r) (e_subs e) /\
  pairwise_disjoint (map iv (e_subs e)) /\
  in_ivs (map iv (e_subs e)) (e_id e).
Lemma well_configured_good e : well_configured e -> good_ep e.
Proof.
  intros (A & B & C). split; [exact A|]. split.
  - apply (proj1 (FOP_map iv iv_disjoint _)) in B. eapply FOP_impl; [|exact A|exact B]. intros x y Hx Hy H. now apply apart_disjoint.
  - apply rs_in_ivs in C. exact C.
Qed.
Lemma create_well_configured ref id cs l : id <> 0 -> endpoint_subnets id cs = Some l ->
  (forall l0, endpoint_ranges id cs = Some l0 -> pairwise_disjoint (map iv l0) /\ Forall (fun r => 0 < g_min r) l0) ->
  well_configured {| e_ref := ref; e_id := id; e_subs := l |}.
Proof.
  intros Hid E D. destruct (endpoint_subnets_spec id cs l Hid E) as [W I].
  unfold endpoint_subnets in E. destruct (endpoint_ranges id cs) as [l0|] eqn:R; [|discriminate].
  destruct (D l0 eq_refl) as [D1 D2].
  destruct (endpoint_ranges_spec id cs l0 Hid R) as [W0 I0].
  unfold well_configured. cbn [e_subs e_id]. split; [|split].
  - rewrite Forall_forall in *. intros r Hr. pose proof (wf_le _ (W r Hr)). split; [|assumption].
    assert (H0 : rs_in l (g_min r)) by (exists r; split; [exact Hr|lia]).
    apply I in H0. apply I0 in H0. destruct H0 as (r0 & Hr0 & H0). specialize (D2 r0 Hr0). lia.
  - apply (proj1 (FOP_map iv iv_disjoint _)) in D1. apply (proj2 (FOP_map iv iv_disjoint _)). pose proof (merges_to_separated l0 l W0 (merge_subnets_merges _ _ E) D1) as S.
    eapply FOP_impl; [|exact W|exact S]. intros x y _ _ H. cbv beta in H. intros z. unfold in_iv, iv. cbn [fst snd]. lia.
  - apply rs_in_ivs. apply I. now left.
Qed.
