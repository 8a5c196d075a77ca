(** An endpoint is removed only for a reason: C68. *)
From Verif Require Import Base Subnet Route Address NodeTypes NodeConn NodeCore NodeMsg Node
  NodeFrame NodeReset NodeInv NodeKeep NodeSteps NodeReach NodeSpec NodeLog NodeNotice CauseSpec NodeCause NodeExample.
Local Open Scope N_scope.
Ltac Zify.zify_post_hook ::= idtac.

(** The log is newest first: [past] is what happened before the removal was reported. *)
Theorem C68_cause n evs s after e past : run n evs new_node = Some s -> log s = after ++ TRemoved e :: past ->
  reason (e_id (d_ep (es s e))) e past.
Proof.
  intros R L. assert (J : just s) by (apply reachable_just; now exists n, evs).
  pose proof (J_why s J) as C. rewrite L in C. now apply causes_split in C.
Qed.
(** The endpoint with the faults has the number of the endpoint that is removed. *)
Theorem C68_number n evs s y id lim : run n evs new_node = Some s -> In (TFault y id lim) (log s) ->
  id = 0 \/ e_id (d_ep (es s y)) = id.
Proof.
  intros R L. assert (J : just s) by (apply reachable_just; now exists n, evs).
  destruct (J_named s J y id lim L) as [X|[_ X]]; auto.
Qed.
(** A message of the peer that is handled without an error, an answer to a ping for
    instance, starts the count anew. *)
Lemma blame_found y l1 l2 : (forall i lim, ~ In (TFault y i lim) l1) -> blame y (l1 ++ TGood y :: l2) = 0.
Proof.
  induction l1 as [|t l IH]; intro H; [cbn; now rewrite N.eqb_refl|].
  assert (K : blame y (l ++ TGood y :: l2) = 0) by (apply IH; intros i lim X; apply (H i lim); now right).
  destruct t; try exact K; cbn [app blame].
  - destruct (N.eqb_spec e y) as [->|]; [|exact K]. elim (H id limit). now left.
  - destruct (e =? y); [reflexivity|exact K].
Qed.
Theorem C68_handled c m s e : k_bind (cs (fst (dispatch_msg c m s)) c) = Some e -> (0 <= snd (dispatch_msg c m s))%Z ->
  blame e (log (on_recv c m s)) = 0 /\ log (on_recv c m s) = TGood e :: log (fst (dispatch_msg c m s)).
Proof.
  unfold on_recv. destruct (dispatch_msg c m s) as [s1 r]. cbn [fst snd]. intros B P.
  destruct (Z.ltb_spec r 0) as [X|_]; [lia|]. rewrite B. cbv zeta. split; [apply (blame_found e []); auto|reflexivity].
Qed.

(** ** C36: a peer that answers is kept *)
Lemma steady_tail y t l : steady y (t :: l) -> steady y l.
Proof. intros S a m b i j x k ->. apply (S (t :: a) m b i j x k). reflexivity. Qed.
Lemma blame_pos y l : 0 < blame y l -> exists m i x b, l = m ++ TFault y i x :: b /\ ~ In (TGood y) m.
Proof.
  induction l as [|t l IH]; [intro H; cbn in H; lia|]. intro H.
  assert (K : 0 < blame y l -> t <> TGood y -> exists m i x b, t :: l = m ++ TFault y i x :: b /\ ~ In (TGood y) m).
  { intros P N. destruct (IH P) as (m & i & x & b & -> & NI). exists (t :: m), i, x, b. split; [reflexivity|]. intros [X|X]; [now apply N|now apply NI]. }
  destruct t; try (apply K; [exact H|discriminate]).
  - cbn [blame] in H. destruct (N.eqb_spec e y) as [->|D]; [|apply K; [exact H|discriminate]].
    exists [], id, limit, l. split; [reflexivity|intros []].
  - cbn [blame] in H. destruct (N.eqb_spec e y) as [->|D]; [lia|]. apply K; [exact H|]. intros [= X]. now apply D.
Qed.
Lemma steady_blame y l : steady y l -> blame y l <= 1.
Proof.
  induction l as [|t l IH]; [cbn; lia|]. intro S. pose proof (IH (steady_tail y t l S)) as L. destruct t; cbn [blame]; try exact L.
  - destruct (N.eqb_spec e y) as [->|]; [|exact L]. destruct (N.eq_dec (blame y l) 0) as [->|NZ]; [lia|].
    destruct (blame_pos y l) as (m & i & x & b & E & NI); [lia|]. elim NI. apply (S [] m b id i limit x). now rewrite E.
  - destruct (_ =? _); [lia|exact L].
Qed.
(** However many ping rounds there are: as long as a message of every endpoint with this
    number is handled between two of its faults, and one fault is tolerated, no endpoint
    with this number is removed for faults. *)
Theorem C36_answering_kept n evs s after e past : run n evs new_node = Some s -> log s = after ++ TRemoved e :: past ->
  (forall y lim, In (TFault y (e_id (d_ep (es s e))) lim) past -> steady y past /\ 1 <= lim) ->
  resetting past \/ asked (e_id (d_ep (es s e))) past \/ deserted e past.
Proof.
  intros R L H. destruct (C68_cause n evs s after e past R L) as [X|[X|[X|X]]]; auto.
  exfalso. destruct X as (y & lim & b & E & B). destruct (H y lim) as [S M]; [rewrite E; now left|]. pose proof (steady_blame y past S). lia.
Qed.

(** ** Each reason occurs *)
Definition err c := EIo (IRecv c (RErr 0)).
Definition reg_at c := EIo (IRecv c (RMsg 10 (msg0 65540 (BReg false (reg0 65540 []))))).
Definition h_asked := boot 65540 [] ++ [EDisconnect 65540].
Definition h_reset := boot 65540 [] ++ [EReset].
Definition h_faults := boot 65540 [] ++ [err 2; err 2; err 2].
Definition h_closed := boot 65540 [] ++ [EIo (IClosed 2); EProc 101 []].
Definition index (l : list tr) : option nat :=
  (fix f (n : nat) (l : list tr) := match l with [] => None | TRemoved 2 :: _ => Some n | _ :: r => f (S n) r end) O l.
Definition past_of (h : list event) : option (list tr) :=
  match run fuel0 h new_node with
  | Some s => match index (log s) with Some n => Some (skipn (S n) (log s)) | None => None end
  | None => None
  end.
Lemma past_ok h past : past_of h = Some past -> exists s after, run fuel0 h new_node = Some s /\ log s = after ++ TRemoved 2 :: past.
Proof.
  unfold past_of. destruct (run fuel0 h new_node) as [s|]; [|discriminate]. unfold index.
  assert (H : forall l k, (exists n l1 l2, (fix f (n : nat) (l : list tr) := match l with [] => None | TRemoved 2 :: _ => Some n | _ :: r => f (S n) r end) k l = Some n /\
      l = l1 ++ TRemoved 2 :: l2 /\ n = (k + length l1)%nat) \/
      (fix f (n : nat) (l : list tr) := match l with [] => None | TRemoved 2 :: _ => Some n | _ :: r => f (S n) r end) k l = None).
  { induction l as [|t l IH]; intro k; [now right|].
    assert (W : t = TRemoved 2 \/ t <> TRemoved 2) by (destruct t; try (right; discriminate); destruct (N.eq_dec e 2) as [->|D]; [now left|right; congruence]).
    destruct W as [->|W]; [left; exists k, [], l; split; [reflexivity|split; [reflexivity|cbn; lia]]|].
    destruct (IH (S k)) as [(n & l1 & l2 & A & B & C)|A].
    - left. exists n, (t :: l1), l2. rewrite B, C in *. split; [|split; [reflexivity|cbn [length]; lia]].
      destruct t; try exact A. destruct e as [|[p|[p|p|]|]]; try exact A. now elim W.
    - right. destruct t; try exact A. destruct e as [|[p|[p|p|]|]]; try exact A. now elim W. }
  destruct (H (log s) O) as [(n & l1 & l2 & A & B & C)|A].
  - rewrite A. intro X. injection X as <-. exists s, l1. split; [reflexivity|]. rewrite B at 1. do 2 f_equal. rewrite C, B, Nat.add_0_l.
    clear. induction l1 as [|t l IH]; [reflexivity|exact IH].
  - rewrite A. discriminate.
Qed.
Ltac past h := let v := eval vm_compute in (past_of h) in match v with Some ?p =>
  destruct (past_ok h p) as (s & after & R & L); [vm_compute; reflexivity|]; exists s, after, p; split; [exact R|split; [exact L|]] end.
Example C68_asked_case : exists s after past, run fuel0 h_asked new_node = Some s /\ log s = after ++ TRemoved 2 :: past /\ asked 65540 past.
Proof. past h_asked. eexists. reflexivity. Qed.
Example C68_reset_case : exists s after past, run fuel0 h_reset new_node = Some s /\ log s = after ++ TRemoved 2 :: past /\ resetting past.
Proof.
  past h_reset. match goal with |- resetting ?l => let rec go a l := match l with TBegin :: ?b => exists (rev a), b; cbn [rev app] | ?x :: ?r => go (x :: a) r end in go (@nil tr) l end.
  split; [reflexivity|]. cbn [In]. intuition discriminate.
Qed.
Example C68_overdue_case : exists s after past, run fuel0 h_faults new_node = Some s /\ log s = after ++ TRemoved 2 :: past /\ overdue 65540 past.
Proof. past h_faults. do 3 eexists. split; [reflexivity|]. vm_compute. reflexivity. Qed.
Example C68_deserted_case : exists s after past, run fuel0 h_closed new_node = Some s /\ log s = after ++ TRemoved 2 :: past /\ deserted 2 past.
Proof.
  past h_closed. match goal with |- deserted 2 ?l => let rec go a l := match l with TCheck 2 ?c ?d :: ?b => exists (rev a), c, d, b; cbn [rev app] | ?x :: ?r => go (x :: a) r end in go (@nil tr) l end.
  split; [reflexivity|]. split; [repeat constructor|auto].
Qed.
(** The hypotheses of [C68_handled]: an answer to a ping, after two faults in a row. *)
Definition pong q := {| m_head := {| h_ver := 2; h_type := 0; h_ret := 0; h_seq := q; h_src := 65540 |}; m_body := BPing true 1 |}.
Example C68_handled_case : exists s, run fuel0 (boot 65540 [] ++ [err 2; err 2]) new_node = Some s /\ blame 2 (log s) = 2 /\
  k_bind (cs (fst (dispatch_msg 2 (pong 3) s)) 2) = Some 2 /\ (0 <= snd (dispatch_msg 2 (pong 3) s))%Z.
Proof.
  apply (witness_run _ (fun s => (blame 2 (log s), k_bind (cs (fst (dispatch_msg 2 (pong 3) s)) 2), snd (dispatch_msg 2 (pong 3) s))) _ (2, Some 2, 0%Z)); [vm_compute; reflexivity|].
  intros s E. injection E as E1 E2 E3. rewrite E1, E2, E3. repeat split; lia.
Qed.

(** The hypotheses of [C36_answering_kept]: six faults, each followed by an answer. *)
Fixpoint steady_b (y : N) (open : bool) (l : list tr) : bool :=
  match l with
  | [] => true
  | TFault z _ _ :: r => if z =? y then negb open && steady_b y true r else steady_b y open r
  | TGood z :: r => if z =? y then steady_b y false r else steady_b y open r
  | _ :: r => steady_b y open r
  end.
Lemma steady_b_ok y l : forall open, steady_b y open l = true ->
  steady y l /\ (open = true -> forall m i x b, l = m ++ TFault y i x :: b -> In (TGood y) m).
Proof.
  induction l as [|t l IH]; intros open H.
  - split; [intros [|] m b i j x k E; discriminate E|]. intros _ [|] i x b E; discriminate E.
  - assert (K : forall o, steady_b y o l = true -> (forall i x, t <> TFault y i x) -> (open = true -> t = TGood y \/ o = true) ->
      steady y (t :: l) /\ (open = true -> forall m i x b, t :: l = m ++ TFault y i x :: b -> In (TGood y) m)).
    { intros o B NF GO. destruct (IH o B) as [S W]. split.
      - intros [|t' a] m b i j x k E; cbn [app] in E; injection E as E1 E2; [now elim (NF i x)|]. now apply (S a m b i j x k).
      - intros O [|t' m] i x b E; cbn [app] in E; injection E as E1 E2; [now elim (NF i x)|]. subst t'. destruct (GO O) as [-> | ->]; [now left|right].
        now apply (W eq_refl m i x b). }
    destruct t; try (apply (K open); [exact H|discriminate|auto]).
    + cbn [steady_b] in H. destruct (N.eqb_spec e y) as [->|D]; [|apply (K open); [exact H|congruence|auto]].
      apply andb_true_iff in H as [O H]. destruct open; [discriminate O|]. destruct (IH true H) as [S W]. split; [|discriminate].
      intros [|t' a] m b i j x k E; cbn [app] in E; injection E as E1 E2; [now apply (W eq_refl m j k b)|]. now apply (S a m b i j x k).
    + cbn [steady_b] in H. destruct (N.eqb_spec e y) as [->|D]; [apply (K false); [exact H|discriminate|auto]|apply (K open); [exact H|discriminate|auto]].
Qed.
Definition answer := EIo (IRecv 2 (RMsg 10 (pong 3))).
Definition h_answers := boot 65540 [] ++ [err 2; answer; err 2; answer; err 2; answer; err 2; answer; err 2; answer; err 2; answer; EDisconnect 65540].
Example C36_answering_kept_case : exists s after past, run fuel0 h_answers new_node = Some s /\ log s = after ++ TRemoved 2 :: past /\
  (exists x, In (TFault 2 65540 x) past) /\ (forall y lim, In (TFault y 65540 lim) past -> steady y past /\ 1 <= lim).
Proof.
  past h_answers. split; [eexists; cbn [In]; repeat first [left; reflexivity|right]|].
  intros y lim I. cbn [In] in I. repeat match type of I with _ \/ _ => destruct I as [I|I]; [first [discriminate I|injection I as <- <-; split; [apply (steady_b_ok 2 _ false); vm_compute; reflexivity|discriminate]]|] end.
  destruct I.
Qed.

(** ** False: only the endpoint that has the faults is removed for them *)
(** Endpoint 2 lost its control connection and is waiting to be collected when its peer
    comes back with two connections, which then fail three times: it is taken out of the
    table but not destroyed.  The peer registers again and is endpoint 3.  The next
    failure on a connection of endpoint 2 removes endpoint 3, which has no faults. *)
Definition h_stale := boot 65540 [] ++ [EIo (IClosed 2); EIo (IAccepted adr2); reg_at 4; EIo (IAccepted adr2); reg_at 5;
  err 4; err 5; err 4; EIo (IAccepted adr2); reg_at 6; err 5].
Theorem C68_innocent_refuted : exists s, run fuel0 h_stale new_node = Some s /\ exists past, log s = TRemoved 3 :: past /\
  blame 3 past = 0 /\ ~ resetting past /\ ~ asked 65540 past /\ ~ deserted 3 past /\ In (TAdded 3) past.
Proof.
  apply (witness_run (fun s => exists past, log s = TRemoved 3 :: past /\ blame 3 past = 0 /\ ~ resetting past /\ ~ asked 65540 past /\ ~ deserted 3 past /\ In (TAdded 3) past)
    (fun s => match log s with TRemoved 3 :: past => (blame 3 past, existsb (fun t => match t with TBegin => true | _ => false end) past,
       match past with TFault _ _ _ :: _ => true | _ => false end, existsb (fun t => match t with TAdded 3 => true | _ => false end) past) | _ => (1, true, false, false) end) _ (0, false, true, true)); [vm_compute; reflexivity|].
  intros s E. destruct (log s) as [|[] past] eqn:L; try discriminate. destruct e as [|[[]|[]|]]; try discriminate. injection E as E1 E2 E3 E4.
  exists past. split; [reflexivity|]. split; [exact E1|]. split.
  - intros (a & b & -> & _). rewrite existsb_app in E2. cbn in E2. now rewrite orb_true_r in E2.
  - destruct past as [|[] past]; try discriminate E3. split; [intros (b & X); discriminate|]. split.
    + intros ([|t k] & c & d & b & X & F & _); [discriminate|]. injection X as <- _. inversion F. contradiction.
    + right. cbn in E4. apply existsb_exists in E4 as (t & I & X). destruct t; try discriminate X. destruct e0 as [|[[]|[]|]]; try discriminate X. exact I.
Qed.
Print Assumptions C36_answering_kept.
Print Assumptions C68_cause.
Print Assumptions C68_number.
Print Assumptions C68_handled.
Print Assumptions C68_innocent_refuted.
