(** The life of a connection: C74. *)
From Verif Require Import Base Subnet Route Address NodeTypes NodeConn NodeCore NodeMsg Node
  NodeFrame NodeReset NodeInv NodeKeep NodeSteps NodeReach NodeSpec NodeExample LifeSpec NodeLife.
Local Open Scope N_scope.
Ltac Zify.zify_post_hook ::= idtac.

Lemma role_spec c t :
  match role_of c t with
  | Free => ~ about c t
  | Born => t = TNew c
  | Used => uses c t
  | Shut => t = TClose c
  end.
Proof.
  destruct t as [x m n r|e o m|e o m|o f a|o f a q| | | | |x|x|x z| | |x z n|x| | | | | | |]; unfold about; cbn [role_of uses].
  all: try (destruct o as [x|]).
  all: try (destruct (N.eqb_spec x c) as [->|D]; [reflexivity|]).
  all: intros [A|[A|A]]; first [discriminate A | exact A | now injection A | contradiction].
Qed.
Lemma from_gone c l q : fold_left (nxt c) l (Some Gone) = Some q -> q = Gone /\ nothing c l.
Proof.
  induction l as [|t l IH]; cbn [fold_left]; [intros [= <-]; split; [reflexivity|intros t []]|]. pose proof (role_spec c t) as R. unfold nxt at 2.
  destruct (role_of c t); try (rewrite none_fold; discriminate). intro E. destruct (IH E) as [-> N]. split; [reflexivity|].
  intros x [->|X]; [exact R|now apply N].
Qed.
Lemma from_opened c l q : fold_left (nxt c) l (Some Opened) = Some q ->
  (q = Opened /\ only_uses c l) \/ (q = Gone /\ exists b d, l = b ++ TClose c :: d /\ only_uses c b /\ nothing c d).
Proof.
  induction l as [|t l IH]; cbn [fold_left]; [intros [= <-]; left; split; [reflexivity|intros t []]|]. pose proof (role_spec c t) as R. unfold nxt at 2.
  assert (Z : (about c t -> uses c t) -> fold_left (nxt c) l (Some Opened) = Some q ->
    (q = Opened /\ only_uses c (t :: l)) \/ (q = Gone /\ exists b d, t :: l = b ++ TClose c :: d /\ only_uses c b /\ nothing c d)).
  { intros U E. destruct (IH E) as [[-> O]|(-> & b & d & -> & O & N)]; [left|right]; (split; [reflexivity|]).
    - intros x [->|X]; [exact U|now apply O].
    - exists (t :: b), d. repeat split; trivial. intros x [->|X]; [exact U|now apply O]. }
  destruct (role_of c t); try (rewrite none_fold; discriminate); [apply Z; tauto|apply Z; tauto|].
  intro E. subst t. apply from_gone in E. destruct E as [-> N]. right. split; [reflexivity|]. exists [], l. repeat split; trivial. intros x [].
Qed.
Lemma from_fresh c l q : fold_left (nxt c) l (Some Fresh) = Some q ->
  (q = Fresh /\ nothing c l) \/ exists a b, l = a ++ TNew c :: b /\ nothing c a /\ fold_left (nxt c) b (Some Opened) = Some q.
Proof.
  induction l as [|t l IH]; cbn [fold_left]; [intros [= <-]; left; split; [reflexivity|intros t []]|]. pose proof (role_spec c t) as R. unfold nxt at 2.
  destruct (role_of c t); try (rewrite none_fold; discriminate).
  - intro E. destruct (IH E) as [[-> N]|(a & b & -> & N & F)]; [left; split; [reflexivity|]|right; exists (t :: a), b; repeat split; trivial];
      (intros x [->|X]; [exact R|now apply N]).
  - intro E. subst t. right. exists [], l. repeat split; trivial. intros x [].
Qed.
(** ** C74 *)
(** Every connection a node reports as new is reported once; what is sent, written or
    received over it comes after that and before it is closed; it is closed at most
    once, and after that nothing happens on it any more. *)
Theorem C74_life_of_a_connection s c : reachable s -> lived c (rev (log s)).
Proof.
  intro R. destruct (stands s R) as [_ S]. destruct (S c) as (p & q & [-> | ->] & G & _); unfold goes in G.
  - apply from_fresh in G. destruct G as [[_ N]|(a & b & E & N & F)]; [now apply L_unborn|].
    apply from_opened in F. destruct F as [[_ O]|(_ & b1 & d & -> & O & N2)]; [eapply L_open|eapply L_gone]; eauto.
  - apply L_unborn. now apply from_gone in G.
Qed.
(** The connections a node keeps open are those it reported as new and has not closed. *)
Theorem C74_open_iff s c : reachable s ->
  k_kind (cs s c) <> KNone <-> In (TNew c) (log s) /\ ~ In (TClose c) (log s).
Proof.
  intro R. destruct (stands s R) as [_ S]. destruct (S c) as (p & q & P & G & L); unfold goes in G.
  assert (Q : k_kind (cs s c) <> KNone <-> q = Opened).
  { unfold ph in L. destruct (k_kind (cs s c)).
    - split; [congruence|intros ->]. destruct L as [L|[L _]]; [|discriminate]. destruct (_ || _); discriminate.
    - destruct L as [->|[_ L]]; [|discriminate]. split; [reflexivity|discriminate].
    - destruct L as [->|[_ L]]; [|discriminate]. split; [reflexivity|discriminate].
    - destruct L as [->|[_ L]]; [|discriminate]. split; [reflexivity|discriminate].
    - destruct L as [->|[_ L]]; [|discriminate]. split; [reflexivity|discriminate]. }
  rewrite Q. clear Q L. rewrite (in_rev (log s) (TNew c)), (in_rev (log s) (TClose c)). generalize dependent (rev (log s)). intros l G.
  assert (A1 : about c (TNew c)) by now left. assert (A2 : about c (TClose c)) by (right; now right).
  destruct P as [-> | ->].
  - apply from_fresh in G. destruct G as [[-> N]|(a & b & -> & N & F)].
    + split; [discriminate|]. intros [I _]. elim (N _ I A1).
    + assert (I : In (TNew c) (a ++ TNew c :: b)) by (apply in_app_iff; right; now left).
      apply from_opened in F. destruct F as [[-> O]|(-> & b1 & d & -> & O & N2)].
      * split; [|reflexivity]. intros _. split; [exact I|]. intro X. apply in_app_iff in X. destruct X as [X|[X|X]]; [elim (N _ X A2)|discriminate|].
        exact (O _ X A2).
      * split; [discriminate|]. intros [_ X]. elim X. apply in_app_iff. right. right. apply in_app_iff. right. now left.
  - apply from_gone in G. destruct G as [-> N]. split; [discriminate|]. intros [I _]. elim (N _ I A1).
Qed.
(** Connection 2 is accepted, receives a request, answers and is closed by the peer;
    connection 1 listens and stays open. *)
Example C74_case : exists s, reachable s /\ In (TNew 1) (log s) /\ ~ In (TClose 1) (log s) /\ In (TNew 2) (log s) /\
  (exists m n r, In (TSend 2 m n r) (log s)) /\ In (TClose 2) (log s) /\ k_kind (cs s 1) = KListen /\ k_kind (cs s 2) = KNone.
Proof.
  observe (fun s => (log s, k_kind (cs s 1), k_kind (cs s 2))) (boot 65540 [] ++ [EIo (IClosed 2)]).
  exists s. split; [exact R|]. pose proof (f_equal (fun o => fst (fst o)) E) as E1. pose proof (f_equal (fun o => snd (fst o)) E) as E2. pose proof (f_equal snd E) as E3.
  cbn [fst snd] in E1, E2, E3. rewrite E1. clear E E1.
  repeat split; trivial.
  - repeat first [left; reflexivity|right].
  - intro X. repeat destruct X as [X|X]; try discriminate X; contradiction.
  - repeat first [left; reflexivity|right].
  - eexists _, _, _. repeat first [left; reflexivity|right].
  - repeat first [left; reflexivity|right].
Qed.
Print Assumptions C74_life_of_a_connection.
Print Assumptions C74_open_iff.
