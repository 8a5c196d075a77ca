(** Invariant of the model of messages to self. *)
From Verif Require Import Base SelfMsg SelfSpec.
Local Open Scope N_scope.
Ltac Zify.zify_post_hook ::= idtac.

Section P.
Variable loop : Z.

Inductive base : list frame -> bool -> bool -> Prop :=
| base_top : base [] false false
| base_disp p r : base [FDisp p r] true false
| base_rst ph : base [FRst ph] false true
| base_both p r : base [FDisp p r; FRst RLoop] true true.
Definition waits (p : pc) : Prop := match p with PData _ | PCmd _ => False | _ => True end.
Definition bpc (b : list frame) : option pc := match b with FDisp p _ :: _ => Some p | _ => None end.
(** Guards of the running callbacks: only the outermost one set the flag. *)
Fixpoint guards (us : list bool) : Prop := match us with [] => True | [x] => x = true | x :: r => x = false /\ guards r end.
Definition reqs (d : list item) : list (bytes * bool) := flat_map (fun i => match i with IReq c b => [(c, b)] | IRsp _ => [] end) d.
Definition dpend (p : option pc) (d : list item) : list item := match p with Some (PAfter _ _ _) | Some (PPop _) => tl d | _ => d end.
Definition cpend (p : option pc) (d : list citem) : list citem := match p with Some (PReply _) | Some (PCPop _) => tl d | _ => d end.
Definition cval (i : citem) : bytes + bytes := match i with CReq c => inl c | CRsp c => inr c end.
Fixpoint calm (l : list obs) : Prop := match l with [] => True | o :: r => (to_self o = true -> running r = 0%nat) /\ calm r end.

Record SInv (us : list bool) (b : list frame) (s : snode) : Prop := {
  V_ub : ub s = false;
  V_stack : stack s = map FUser us ++ b;
  V_base : base b (f_self s) (f_rst s);
  V_cb : f_cb s = match us with [] => false | _ => true end;
  V_guards : guards us;
  V_wait : us <> [] -> match b with FDisp p _ :: _ => waits p | FRst RLoop :: _ => False | _ => True end;
  V_off : run_ s = false -> dq s = [] /\ cq s = [];
  V_front : match bpc b with
            | Some (PAfter _ c x) => exists d, dq s = IReq c x :: d
            | Some (PPop _) => dq s <> []
            | Some (PReply _) | Some (PCPop _) => cq s <> []
            | _ => True
            end;
  V_run : running (slog s) = length us;
  V_calm : calm (slog s);
  V_data : exists done, sent (slog s) = done ++ reqs (dpend (bpc b) (dq s)) /\ got (slog s) = map fst done /\
           match bpc b with
           | Some (PAfter _ c x) => exists d, done = d ++ [(c, x)] /\ responses (slog s) = wanted d
           | _ => responses (slog s) = wanted done
           end;
  V_cmd : cmds (slog s) = handled (slog s) ++ map cval (cpend (bpc b) (cq s));
  V_ans : calls (slog s) = (answers (slog s) + match bpc b with Some (PReply _) => 1 | _ => 0 end)%nat }.

Lemma flat_since {A} (f : obs -> list A) o l : o <> OReset -> flat_map f (since (o :: l)) = flat_map f (since l) ++ f o.
Proof.
  intro N. unfold since. assert (E : seg (o :: l) = o :: seg l) by (destruct o; trivial; now elim N). rewrite E. cbn [rev].
  rewrite flat_map_app. cbn. now rewrite app_nil_r.
Qed.
Lemma reqs_app a b : reqs (a ++ b) = reqs a ++ reqs b.
Proof. apply flat_map_app. Qed.
Lemma tl_app {A} (l m : list A) : l <> [] -> tl (l ++ m) = tl l ++ m.
Proof. now destruct l. Qed.
Lemma wanted_app a b : wanted (a ++ b) = wanted a ++ wanted b.
Proof. apply flat_map_app. Qed.

Ltac logs := unfold sent, got, responses, cmds, handled, calls, answers in *; cbn [slog say with_st with_q with_f with_run call enter] in *;
  rewrite ?flat_since by discriminate; cbn [app]; rewrite ?app_nil_r.
Ltac easy_fields := cbn [ub stack f_self f_rst f_cb run_ dq cq slog say with_st with_q with_f with_run call]; trivial.

Lemma guards_cons us : guards us -> guards ((match us with [] => true | _ => false end) :: us).
Proof. destruct us; cbn; auto. Qed.
(** A callback that does not deliver a message to self is entered. *)
Lemma inv_fire us b s : SInv us b s -> (match b with FDisp p _ :: _ => waits p | FRst RLoop :: _ => False | _ => True end) ->
  SInv ((match us with [] => true | _ => false end) :: us) b (call OFire s).
Proof.
  intros [H1 H2 H3 H4 H5 H6 H7 H8 H9 H10 H11 H12 H13] W. constructor; easy_fields.
  - rewrite H2, H4. now destruct us.
  - now apply guards_cons.
  - cbn [running length]. now rewrite H9.
  - cbn [calm to_self]. split; [discriminate|exact H10].
  - destruct H11 as (dn & D1 & D2 & D3). exists dn. logs. auto.
  - logs. exact H12.
  - logs. exact H13.
Qed.
Lemma inv_leave u us b s : SInv (u :: us) b s ->
  SInv us b (say OLeave (with_st (map FUser us ++ b) (if u then with_f (f_self s) false (f_rst s) s else s))).
Proof.
  intros [H1 H2 H3 H4 H5 H6 H7 H8 H9 H10 H11 H12 H13].
  set (t := if u then _ else s).
  assert (T : ub t = ub s /\ f_self t = f_self s /\ f_rst t = f_rst s /\ run_ t = run_ s /\ dq t = dq s /\ cq t = cq s /\ slog t = slog s) by (subst t; destruct u; repeat split).
  destruct T as (T1 & T2 & T3 & T4 & T5 & T6 & T7).
  assert (C : f_cb t = match us with [] => false | _ => true end).
  { subst t. destruct u; easy_fields.
    - destruct us as [|x us]; [reflexivity|]. cbn in H5. destruct H5; discriminate.
    - destruct us as [|x us]; [cbn in H5; discriminate|]. exact H4. }
  assert (G : guards us) by (destruct us as [|x us]; [exact Logic.I|]; cbn in H5; destruct us; apply H5).
  assert (W : match b with FDisp p _ :: _ => waits p | FRst RLoop :: _ => False | _ => True end) by (apply H6; discriminate).
  clearbody t.
  constructor; cbn [ub stack f_self f_rst f_cb run_ dq cq slog say with_st]; rewrite ?T1, ?T2, ?T3, ?T4, ?T5, ?T6, ?T7; trivial.
  - cbn [running]. rewrite H9. reflexivity.
  - cbn [calm to_self]. split; [discriminate|exact H10].
  - destruct H11 as (dn & D1 & D2 & D3). exists dn. logs; auto.
  - logs; exact H12.
  - logs; exact H13.
Qed.
Definition quiet (p : option pc) : Prop := match p with Some p => ~ waits p | None => True end.
Lemma inv_enter us b s : SInv us b s -> match b with FRst RInfo :: _ | FRst RTear :: _ => False | _ => True end ->
  exists b', SInv us b' (enter loop s).
Proof.
  intros I N. unfold enter. destruct (f_self s) eqn:FS; [cbn; eauto|]. destruct (f_cb s) eqn:FC; [cbn; eauto|]. cbn [orb].
  destruct I as [H1 H2 H3 H4 H5 H6 H7 H8 H9 H10 H11 H12 H13]. rewrite FC in H4. destruct us; [|discriminate].
  rewrite FS in H3. exists (FDisp (PData (loop0 loop)) 0 :: b).
  assert (B : base (FDisp (PData (loop0 loop)) 0 :: b) true (f_rst s)).
  { inversion H3; subst; try (constructor; fail). destruct ph; try contradiction. constructor. }
  assert (P : bpc b = None) by (inversion H3; subst; reflexivity). rewrite P in *. cbn [dpend cpend] in *.
  constructor; easy_fields; [now rewrite H2|now intros []].
Qed.
(** The log is longer by an entry that tells only about sending. *)
Lemma inv_call us b s : SInv us b s -> us <> [] \/ b = [] -> exists b', SInv us b' (enter loop s).
Proof.
  intros I [N|N]; [|subst b; apply (inv_enter us [] s I Logic.I)]. exists b. unfold enter. pose proof (V_cb _ _ _ I) as C.
  destruct us; [now elim N|]. rewrite C, orb_true_r. exact I.
Qed.
Lemma inv_send us b i s : SInv us b s -> us <> [] \/ b = [] -> exists b', SInv us b' (send_self loop i s).
Proof.
  intros I N. unfold send_self. destruct (run_ s) eqn:RU; [|eauto]. set (s1 := say _ _).
  assert (I1 : SInv us b s1).
  { subst s1. destruct I as [H1 H2 H3 H4 H5 H6 H7 H8 H9 H10 H11 H12 H13].
    assert (DP : forall j, dpend (bpc b) (dq s ++ [j]) = dpend (bpc b) (dq s) ++ [j]).
    { intro j. unfold dpend. destruct (bpc b) as [[]|]; trivial; apply tl_app; [destruct H8 as (d & ->); discriminate|exact H8]. }
    constructor; easy_fields.
    - congruence.
    - destruct (bpc b) as [[]|]; trivial; [destruct H8 as (d & ->); exists (d ++ [i]); reflexivity|]. intro X. now apply app_eq_nil in X.
    - destruct i; cbn [running]; exact H9.
    - destruct i; cbn [calm to_self]; (split; [discriminate|exact H10]).
    - destruct H11 as (dn & D1 & D2 & D3). exists dn. rewrite DP, reqs_app. destruct i; logs; cbn [reqs flat_map app]; rewrite ?app_nil_r.
      + rewrite D1, <- app_assoc. auto.
      + auto.
    - destruct i; logs; exact H12.
    - destruct i; logs; exact H13. }
  now apply inv_call with b.
Qed.
Lemma inv_queued us b i s : SInv us b s -> run_ s = true ->
  (match bpc b with Some (PReply _) => exists c, i = CRsp c | _ => exists c, i = CReq c end) ->
  SInv us (match b with FDisp (PReply n) r :: k => FDisp (PCPop n) r :: k | _ => b end)
    (say (match i with CReq c => OCmdSent c | CRsp c => OReplied c end) (with_q (dq s) (cq s ++ [i])
       (with_st (map FUser us ++ match b with FDisp (PReply n) r :: k => FDisp (PCPop n) r :: k | _ => b end) s))).
Proof.
  intros [H1 H2 H3 H4 H5 H6 H7 H8 H9 H10 H11 H12 H13] RU K.
  set (b' := match b with FDisp (PReply n) r :: k => FDisp (PCPop n) r :: k | _ => b end).
  assert (CP : cpend (bpc b') (cq s ++ [i]) = cpend (bpc b) (cq s) ++ [i]).
  { subst b'. unfold cpend. destruct b as [|[h|[] r|ph] k]; cbn [bpc] in *; trivial; now apply tl_app. }
  assert (DP : dpend (bpc b') (dq s) = dpend (bpc b) (dq s)) by (subst b'; destruct b as [|[h|[] r|ph] k]; reflexivity).
  assert (B : base b' (f_self s) (f_rst s)) by (subst b'; destruct H3 as [|[]| |[]]; constructor).
  assert (W : us <> [] -> match b' with FDisp p _ :: _ => waits p | FRst RLoop :: _ => False | _ => True end).
  { intro N. specialize (H6 N). subst b'. destruct b as [|[h|[] r|ph] k]; trivial. }
  assert (NE : cq s ++ [i] <> []) by (intro X; now apply app_eq_nil in X).
  constructor; cbn [ub stack f_self f_rst f_cb run_ dq cq slog say with_st with_q]; trivial; rewrite ?CP, ?DP.
  - congruence.
  - subst b'. destruct b as [|[h|[] r|ph] k]; cbn [bpc] in *; trivial.
  - destruct i; cbn [running]; exact H9.
  - destruct i; cbn [calm to_self]; (split; [discriminate|exact H10]).
  - destruct H11 as (dn & D1 & D2 & D3). exists dn.
    destruct i; logs; (split; [exact D1|]); (split; [exact D2|]); subst b'; destruct b as [|[h|[] r|ph] k]; cbn [bpc] in *; exact D3.
  - destruct i; logs; rewrite map_app, app_assoc, <- H12; reflexivity.
  - subst b'. destruct b as [|[h|[] r|ph] k]; cbn [bpc] in *; destruct K as (cc & ->); logs; rewrite ?app_length; cbn [length]; lia.
Qed.
Lemma inv_send_cmd us b c s : SInv us b s -> us <> [] \/ b = [] -> exists b', SInv us b' (send_cmd loop (CReq c) s).
Proof.
  intros I U. unfold send_cmd. destruct (run_ s) eqn:RU; [|eauto].
  assert (X : SInv us b (say (OCmdSent c) (with_q (dq s) (cq s ++ [CReq c]) s))).
  { destruct I as [H1 H2 H3 H4 H5 H6 H7 H8 H9 H10 H11 H12 H13].
    assert (CP : cpend (bpc b) (cq s ++ [CReq c]) = cpend (bpc b) (cq s) ++ [CReq c]).
    { unfold cpend. destruct b as [|[h|[] r|ph] k]; cbn [bpc] in *; trivial; now apply tl_app. }
    constructor; cbn [ub stack f_self f_rst f_cb run_ dq cq slog say with_st with_q]; trivial; rewrite ?CP.
    - congruence.
    - destruct (bpc b) as [[]|]; trivial; intro X; now apply app_eq_nil in X.
    - cbn [calm to_self]. split; [discriminate|exact H10].
    - destruct H11 as (dn & D1 & D2 & D3). exists dn. logs. auto.
    - logs. rewrite map_app, app_assoc, <- H12. reflexivity.
    - logs. exact H13. }
  now apply inv_call with b.
Qed.

(** Delivery: the log grows by the entry of a callback, with nothing else running. *)
Lemma inv_tick p r k x s : SInv [] (FDisp p r :: k) s -> exists us' b', SInv us' b' (disp loop p r k x s).
Proof.
  intro I. destruct p as [n|n c rsp|n|n|n|n].
  - cbn [disp]. destruct (dq s) as [|i d] eqn:D.
    { exists [], (FDisp (PCmd (n - 1)) r :: k). destruct I as [H1 H2 H3 H4 H5 H6 H7 H8 H9 H10 H11 H12 H13]. cbn [bpc dpend cpend] in *.
      constructor; easy_fields; try (inversion H3; subst; constructor; fail); try (intros []; reflexivity). }
    destruct (0 <? n)%Z.
    + destruct i as [c b|c].
      * exists [true], (FDisp (PAfter (n - 1) c b) r :: k). destruct I as [H1 H2 H3 H4 H5 H6 H7 H8 H9 H10 H11 H12 H13]. cbn [bpc dpend cpend] in *.
        constructor; easy_fields; cbn [bpc dpend cpend]; try (inversion H3; subst; constructor; fail); try (intros []; reflexivity).
        -- now rewrite H4.
        -- eauto.
        -- cbn [running]. now rewrite H9.
        -- cbn [calm to_self]. now split.
        -- destruct H11 as (dn & D1 & D2 & D3). exists (dn ++ [(c, b)]). rewrite D in *. cbn [tl]. logs. rewrite map_app, <- app_assoc, D2. split; [exact D1|].
           split; [reflexivity|]. exists dn. auto.
        -- logs. exact H12.
        -- logs. exact H13.
      * exists [], (FDisp (PPop (n - 1)) r :: k). destruct I as [H1 H2 H3 H4 H5 H6 H7 H8 H9 H10 H11 H12 H13]. cbn [bpc dpend cpend] in *.
        constructor; easy_fields; cbn [bpc dpend cpend]; try (inversion H3; subst; constructor; fail); try (intros []; reflexivity).
        -- now rewrite D.
        -- destruct H11 as (dn & D1 & D2 & D3). exists dn. rewrite D in *. cbn [tl]. auto.
    + exists [], (FDisp (PCmd (n - 1)) r :: k). destruct I as [H1 H2 H3 H4 H5 H6 H7 H8 H9 H10 H11 H12 H13]. cbn [bpc dpend cpend] in *.
      constructor; easy_fields; try (inversion H3; subst; constructor; fail); try (intros []; reflexivity).
  - cbn [disp]. destruct I as [H1 H2 H3 H4 H5 H6 H7 H8 H9 H10 H11 H12 H13]. cbn [bpc dpend cpend] in *. destruct H8 as (d & D).
    destruct H11 as (dn & D1 & D2 & d' & -> & D4). destruct rsp.
    + exists [true], (FDisp (PPop n) (r + 1) :: k). constructor; easy_fields; cbn [bpc dpend cpend]; try (inversion H3; subst; constructor; fail); try (intros []; reflexivity).
      * now rewrite H4.
      * now rewrite D.
      * cbn [running]. now rewrite H9.
      * cbn [calm to_self]. now split.
      * exists (d' ++ [(c, true)]). logs. rewrite D4, wanted_app. auto.
      * logs. exact H12.
      * logs. exact H13.
    + exists [], (FDisp (PPop n) (r + 1) :: k). constructor; easy_fields; cbn [bpc dpend cpend]; try (inversion H3; subst; constructor; fail); try (intros []; reflexivity).
      * now rewrite D.
      * exists (d' ++ [(c, false)]). rewrite D4, wanted_app. split; [exact D1|]. split; [exact D2|]. cbn. now rewrite app_nil_r.
  - cbn [disp]. destruct I as [H1 H2 H3 H4 H5 H6 H7 H8 H9 H10 H11 H12 H13]. cbn [bpc dpend cpend] in *. destruct (dq s) as [|i d] eqn:D; [now elim H8|].
    exists [], (FDisp (PData n) r :: k). constructor; easy_fields; cbn [bpc dpend cpend]; try (inversion H3; subst; constructor; fail); try (intros []; reflexivity).
    + intro X. destruct (H7 X). discriminate.
  - cbn [disp]. assert (RET : exists us' b', SInv us' b' (with_st (back r k) (with_f false (f_cb s) (f_rst s) s))).
    { destruct I as [H1 H2 H3 H4 H5 H6 H7 H8 H9 H10 H11 H12 H13]. cbn [bpc dpend cpend] in *. exists [], (back r k).
      assert (P : bpc (back r k) = None) by (inversion H3; subst; reflexivity).
      constructor; easy_fields; rewrite ?P; trivial; try (inversion H3; subst; constructor; fail); try (intros []; reflexivity). }
    destruct (cq s) as [|i d] eqn:D; [exact RET|]. destruct (0 <? n)%Z; [|exact RET]. clear RET.
    destruct I as [H1 H2 H3 H4 H5 H6 H7 H8 H9 H10 H11 H12 H13]. cbn [bpc dpend cpend] in *. destruct i as [c|c].
    + exists [true], (FDisp (PReply (n - 1)) r :: k). constructor; easy_fields; cbn [bpc dpend cpend]; try (inversion H3; subst; constructor; fail); try (intros []; reflexivity).
      * now rewrite H4.
      * now rewrite D.
      * cbn [running]. now rewrite H9.
      * cbn [calm to_self]. now split.
      * destruct H11 as (dn & D1 & D2 & D3). exists dn. logs. auto.
      * rewrite D in *. logs. rewrite H12, <- app_assoc. reflexivity.
      * logs. rewrite app_length. cbn [length]. lia.
    + exists [true], (FDisp (PCPop (n - 1)) r :: k). constructor; easy_fields; cbn [bpc dpend cpend]; try (inversion H3; subst; constructor; fail); try (intros []; reflexivity).
      * now rewrite H4.
      * now rewrite D.
      * cbn [running]. now rewrite H9.
      * cbn [calm to_self]. now split.
      * destruct H11 as (dn & D1 & D2 & D3). exists dn. logs. auto.
      * rewrite D in *. logs. rewrite H12, <- app_assoc. reflexivity.
      * logs. exact H13.
  - cbn [disp]. exists [], (FDisp (PCPop n) r :: k). unfold send_cmd.
    assert (RU : run_ s = true).
    { destruct (run_ s) eqn:RU; [reflexivity|]. pose proof (V_front _ _ _ I) as F. cbn in F. now destruct (V_off _ _ _ I RU). }
    cbn [run_ with_st]. rewrite RU. pose proof (inv_queued [] (FDisp (PReply n) r :: k) (CRsp x) s I RU ltac:(cbn; eauto)) as Q. cbn [map app] in Q.
    unfold enter. pose proof (V_base _ _ _ I) as B. cbn [f_self f_cb say with_q with_st].
    assert (FS : f_self s = true) by (inversion B; reflexivity). rewrite FS. cbn [orb]. exact Q.
  - cbn [disp]. destruct I as [H1 H2 H3 H4 H5 H6 H7 H8 H9 H10 H11 H12 H13]. cbn [bpc dpend cpend] in *. destruct (cq s) as [|i d] eqn:D; [now elim H8|].
    exists [], (FDisp (PCmd n) (r + 1) :: k). constructor; easy_fields; cbn [bpc dpend cpend]; try (inversion H3; subst; constructor; fail); try (intros []; reflexivity).
    + intro X. destruct (H7 X). discriminate.
Qed.
(** [reset] is called only outside all other calls. *)
Definition polite (a : act) (s : snode) : Prop := match a with AReset => stack s = [] | _ => True end.
Lemma user_shape us b s : SInv us b s -> user s = true -> us <> [] \/ b = [].
Proof.
  intros I U. unfold user in U. rewrite (V_stack _ _ _ I) in U. destruct us; [|now left]. right. destruct (V_base _ _ _ I); trivial; discriminate.
Qed.
Lemma inv_step a us b s s' : SInv us b s -> polite a s -> sstep loop a s = Some s' -> exists us' b', SInv us' b' s'.
Proof.
  intros I P. unfold sstep. rewrite (V_ub _ _ _ I). pose proof (user_shape _ _ _ I) as US. destruct a as [c rsp|c|c| | | | | |x].
  - destruct (user s); [|discriminate]. intros [= <-]. exists us. apply inv_send with b; auto.
  - destruct (user s); [|discriminate]. intros [= <-]. exists us. apply inv_send with b; auto.
  - destruct (user s); [|discriminate]. intros [= <-]. exists us. apply inv_send_cmd with b; auto.
  - destruct (user s); [|discriminate]. intros [= <-]. exists us. apply inv_call with b; auto.
  - intro E. exists ((match us with [] => true | _ => false end) :: us), b.
    assert (W : match b with FDisp p _ :: _ => waits p | FRst RLoop :: _ => False | _ => True end).
    { destruct us as [|u us]; [|apply (V_wait _ _ _ I); discriminate]. rewrite (V_stack _ _ _ I) in E. cbn [map app] in E.
      destruct (V_base _ _ _ I); trivial; try discriminate. destruct ph; trivial; discriminate. }
    assert (X : s' = call OFire s) by (destruct (stack s) as [|[h|p r|[]] k]; congruence). subst s'. now apply inv_fire.
  - rewrite (V_stack _ _ _ I). destruct us as [|u us]; cbn [map app]; [destruct (V_base _ _ _ I); discriminate|].
    intros [= <-]. exists us, b. now apply inv_leave.
  - cbn in P. unfold user. rewrite P. intros [= <-].
    assert (E : us = [] /\ b = []). { rewrite (V_stack _ _ _ I) in P. apply app_eq_nil in P as [P1 P2]. now destruct us. } destruct E as [-> ->].
    destruct (f_rst s) eqn:FR; [eauto|]. exists [], [FRst RInfo].
    destruct I as [H1 H2 H3 H4 H5 H6 H7 H8 H9 H10 H11 H12 H13]. cbn [bpc dpend cpend] in *. constructor; easy_fields; cbn [bpc dpend cpend]; trivial; try (inversion H3; subst; constructor; fail); try (intros []; reflexivity).
  - destruct (user s && negb (run_ s)) eqn:U; [|discriminate]. intros [= <-]. apply andb_true_iff in U as [_ U]. apply negb_true_iff in U.
    exists us, b. destruct (V_off _ _ _ I U) as [D C].
    destruct I as [H1 H2 H3 H4 H5 H6 H7 H8 H9 H10 H11 H12 H13]. rewrite D, C in *. constructor; easy_fields. discriminate.
  - rewrite (V_stack _ _ _ I). destruct us as [|u us]; cbn [map app]; [|discriminate].
    destruct b as [|[h|p r|ph] k]; [discriminate|pose proof (V_base _ _ _ I) as B; inversion B| |].
    + intros [= <-]. now apply inv_tick.
    + assert (K : k = [] /\ f_self s = false) by (pose proof (V_base _ _ _ I) as B; inversion B; auto). destruct K as [-> FS].
      pose proof (V_cb _ _ _ I) as FC. cbn in FC. destruct ph.
      * intros [= <-]. exists [], [FRst RLoop]. destruct I as [H1 H2 H3 H4 H5 H6 H7 H8 H9 H10 H11 H12 H13]. cbn [bpc dpend cpend] in *.
        constructor; easy_fields; cbn [bpc dpend cpend]; trivial; try (inversion H3; subst; constructor; fail); try (intros []; reflexivity).
      * rewrite FS, FC. cbn [orb]. intros [= <-]. exists []. now apply inv_enter with [FRst RLoop].
      * intros [= <-]. exists [], []. destruct I as [H1 H2 H3 H4 H5 H6 H7 H8 H9 H10 H11 H12 H13]. cbn [bpc dpend cpend] in *.
        constructor; easy_fields; cbn [bpc dpend cpend]; trivial; try apply base_top; try (intros []; reflexivity); try (now split).
        exists []. now split.
Qed.
Lemma inv_fresh : SInv [] [] fresh.
Proof.
  constructor; easy_fields; try apply base_top; try (intros []; reflexivity); try (now split). exists []. now split.
Qed.
(** A history of calls in which [reset] is not called inside a callback. *)
Inductive history : snode -> Prop :=
| h_fresh : history fresh
| h_step a s s' : history s -> polite a s -> sstep loop a s = Some s' -> history s'.
Lemma history_inv s : history s -> exists us b, SInv us b s.
Proof. induction 1 as [|a s s' H (us & b & I) P E]; [exists [], []; apply inv_fresh|eapply inv_step; eauto]. Qed.
End P.
