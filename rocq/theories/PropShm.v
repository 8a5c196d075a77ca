(** C41: a shared memory region stays mapped as long as it has been opened more often than
    closed, and the last close unmaps it. *)
From Verif Require Import Base NodeConn Shm.
Local Open Scope N_scope.
Local Ltac Zify.zify_post_hook ::= idtac.

(** * Specification: what a user of the calls can see *)
Notation call_result := (sop * (Z * option N))%type.
(** A call of this history opened, or closed, the region with key [k]. *)
Definition is_open (num : bytes -> Z) (k : key) (c : call_result) : bool :=
  match c with (SOpen p _ _, (z, _)) => key_eqb k (normalize num p) && (0 <=? z)%Z | _ => false end.
Definition is_close (num : bytes -> Z) (k : key) (c : call_result) : bool :=
  match c with (SClose p, (z, _)) => key_eqb k (normalize num p) && (z =? 0)%Z | _ => false end.
Definition opened num k (h : list call_result) : N := N.of_nat (length (filter (is_open num k) h)).
Definition closed num k (h : list call_result) : N := N.of_nat (length (filter (is_close num k) h)).
(** No call of the list meets a failing shmat for key [k]. *)
Definition no_shmat_failure num k (l : list sop) : Prop :=
  forall p n ok, In (SOpen p (OsMapFail n) ok) l -> normalize num p <> k.

(** * Tables *)
Lemma bytes_eqb_eq a : forall b, bytes_eqb a b = true <-> a = b.
Proof.
  induction a as [|x a IH]; intros [|y b]; cbn [bytes_eqb]; split; intro H; try discriminate; try reflexivity.
  - apply andb_true_iff in H as [A B]. apply N.eqb_eq in A. apply IH in B. congruence.
  - injection H as -> ->. rewrite N.eqb_refl. cbn. now apply IH.
Qed.
Lemma key_eqb_eq a b : key_eqb a b = true <-> a = b.
Proof.
  destruct a, b; cbn [key_eqb]; try (split; intro H; discriminate).
  - rewrite bytes_eqb_eq. split; intro H; [now subst|now injection H].
  - rewrite Z.eqb_eq. split; intro H; [now subst|now injection H].
Qed.
Lemma key_eqb_refl a : key_eqb a a = true.
Proof. now apply key_eqb_eq. Qed.
Lemma key_dec (a b : key) : a = b \/ a <> b.
Proof. destruct (key_eqb a b) eqn:E; [left; now apply key_eqb_eq|right; intro X; apply key_eqb_eq in X; congruence]. Qed.
Definition look (k : key) (l : list (key * mrec)) : option mrec := option_map snd (find (fun p => key_eqb k (fst p)) l).
Lemma look_del_same k l : look k (del_rec k l) = None.
Proof.
  unfold look, del_rec. induction l as [|p l IH]; [reflexivity|]. cbn [filter].
  destruct (key_eqb k (fst p)) eqn:E; cbn [negb]; [exact IH|]. cbn [find]. rewrite E. exact IH.
Qed.
Lemma look_del_other k k' l : k <> k' -> look k' (del_rec k l) = look k' l.
Proof.
  intro NE. unfold look, del_rec. induction l as [|p l IH]; [reflexivity|]. cbn [filter find].
  destruct (key_eqb k (fst p)) eqn:E; cbn [negb].
  - apply key_eqb_eq in E. destruct (key_eqb k' (fst p)) eqn:F; [apply key_eqb_eq in F; congruence|]. exact IH.
  - cbn [find]. destruct (key_eqb k' (fst p)); [reflexivity|exact IH].
Qed.
Lemma look_put_same k r l : look k (put_rec k r l) = Some r.
Proof. unfold look, put_rec. cbn [find fst]. now rewrite key_eqb_refl. Qed.
Lemma look_put_other k r k' l : k <> k' -> look k' (put_rec k r l) = look k' l.
Proof.
  intro NE. transitivity (look k' (del_rec k l)); [|now apply look_del_other].
  unfold look, put_rec, del_rec. cbn [find fst].
  destruct (key_eqb k' k) eqn:F; [apply key_eqb_eq in F; congruence|reflexivity].
Qed.
Definition setc (r : mrec) (n : N) : mrec := {| m_buf := m_buf r; m_size := m_size r; m_posix := m_posix r; m_count := n |}.

(** * One call, as a change of the table and of the attached mappings *)
Inductive chg (k : key) : shm -> shm -> Prop :=
| CSame s s' : recs s' = recs s -> live s' = live s -> next s' = next s -> chg k s s'
| CCount s s' r n : look k (recs s) = Some r -> recs s' = put_rec k (setc r n) (recs s) -> live s' = live s -> next s' = next s -> chg k s s'
| CNew s s' r : look k (recs s) = None -> m_buf r = Some (next s) -> recs s' = put_rec k r (recs s) ->
    live s' = next s :: live s -> next s' = next s + 1 -> chg k s s'
| CBad s s' r : look k (recs s) = None -> m_buf r = None -> recs s' = put_rec k r (recs s) -> live s' = live s -> next s' = next s -> chg k s s'
| CDel s s' r b : look k (recs s) = Some r -> m_buf r = Some b -> recs s' = del_rec k (recs s) ->
    live s' = filter (fun x => negb (x =? b)) (live s) -> next s' = next s -> chg k s s'
| CDrop s s' r : look k (recs s) = Some r -> m_buf r = None -> recs s' = del_rec k (recs s) -> live s' = live s -> next s' = next s -> chg k s s'.
Lemma close_chg k s : chg k s (fst (close_buffer k s)).
Proof.
  unfold close_buffer. destruct (negb (verify k)); [now apply CSame|]. destruct (find_rec k s) as [r|] eqn:F; [|now apply CSame].
  destruct (0 <? _). { eapply (CCount k s _ r); eauto; reflexivity. }
  destruct (m_buf r) eqn:B; [eapply (CDel k s _ r)|eapply (CDrop k s _ r)]; eauto; reflexivity.
Qed.
Lemma open_chg k o s : chg k s (fst (fst (open_buffer k o s))).
Proof.
  unfold open_buffer. destruct (negb (verify k)); [now apply CSame|]. destruct (find_rec k s) as [r|] eqn:F.
  { eapply (CCount k s _ r); eauto; reflexivity. }
  destruct o, (posix k); cbn [fst recs live next fds]; try (now apply CSame).
  - lazymatch goal with |- context [put_rec k ?r _] => now apply (CNew k s _ r F) end.
  - lazymatch goal with |- context [put_rec k ?r _] => now apply (CNew k s _ r F) end.
  - lazymatch goal with |- context [put_rec k ?r _] => now apply (CBad k s _ r F) end.
Qed.

(** Attached mappings belong to exactly one record. *)
Record tbl (s : shm) : Prop := {
  t_live : forall b, In b (live s) -> b < next s;
  t_buf : forall k r b, look k (recs s) = Some r -> m_buf r = Some b -> b < next s /\ In b (live s);
  t_one : forall k k' r r' b, look k (recs s) = Some r -> look k' (recs s) = Some r' -> m_buf r = Some b -> m_buf r' = Some b -> k = k'
}.
Lemma tbl_chg k s s' : chg k s s' -> tbl s -> tbl s'.
Proof.
  intros C T. destruct C as [s s' R L N'|s s' r n F R L N'|s s' r F B R L N'|s s' r F B R L N'|s s' r b F B R L N'|s s' r F B R L N'];
    split; rewrite ?R, ?L, ?N'.
  - apply T. - apply T. - apply T.
  - apply T.
  - intros k1 r1 b1 F1 B1. destruct (key_dec k k1) as [->|NE].
    + rewrite look_put_same in F1. injection F1 as <-. exact (t_buf _ T _ _ _ F B1).
    + rewrite look_put_other in F1 by exact NE. exact (t_buf _ T _ _ _ F1 B1).
  - intros k1 k2 r1 r2 b1 F1 F2 B1 B2. destruct (key_dec k k1) as [<-|N1], (key_dec k k2) as [<-|N2];
      rewrite ?look_put_same in F1; rewrite ?look_put_same in F2; rewrite ?look_put_other in F1 by assumption; rewrite ?look_put_other in F2 by assumption; [reflexivity|..].
    + injection F1 as <-. exact (t_one _ T _ _ _ _ _ F F2 B1 B2).
    + injection F2 as <-. exact (t_one _ T _ _ _ _ _ F1 F B1 B2).
    + exact (t_one _ T _ _ _ _ _ F1 F2 B1 B2).
  - intros b [<-|I]; [lia|]. pose proof (t_live _ T _ I). lia.
  - intros k1 r1 b1 F1 B1. destruct (key_dec k k1) as [->|NE].
    + rewrite look_put_same in F1. injection F1 as <-. rewrite B in B1. injection B1 as <-. split; [lia|now left].
    + rewrite look_put_other in F1 by exact NE. destruct (t_buf _ T _ _ _ F1 B1). split; [lia|now right].
  - intros k1 k2 r1 r2 b1 F1 F2 B1 B2. destruct (key_dec k k1) as [<-|N1], (key_dec k k2) as [<-|N2];
      rewrite ?look_put_same in F1; rewrite ?look_put_same in F2; rewrite ?look_put_other in F1 by assumption; rewrite ?look_put_other in F2 by assumption; [reflexivity|..].
    + injection F1 as <-. destruct (t_buf _ T _ _ _ F2 B2). rewrite B in B1. injection B1 as <-. lia.
    + injection F2 as <-. destruct (t_buf _ T _ _ _ F1 B1). rewrite B in B2. injection B2 as <-. lia.
    + exact (t_one _ T _ _ _ _ _ F1 F2 B1 B2).
  - apply T.
  - intros k1 r1 b1 F1 B1. destruct (key_dec k k1) as [->|NE].
    + rewrite look_put_same in F1. injection F1 as <-. congruence.
    + rewrite look_put_other in F1 by exact NE. exact (t_buf _ T _ _ _ F1 B1).
  - intros k1 k2 r1 r2 b1 F1 F2 B1 B2. destruct (key_dec k k1) as [<-|N1], (key_dec k k2) as [<-|N2];
      rewrite ?look_put_same in F1; rewrite ?look_put_same in F2; rewrite ?look_put_other in F1 by assumption; rewrite ?look_put_other in F2 by assumption; [reflexivity|..].
    + injection F1 as <-. congruence.
    + injection F2 as <-. congruence.
    + exact (t_one _ T _ _ _ _ _ F1 F2 B1 B2).
  - intros x I. apply filter_In in I as [I _]. now apply T.
  - intros k1 r1 b1 F1 B1. destruct (key_dec k k1) as [->|NE]; [rewrite look_del_same in F1; discriminate|].
    rewrite look_del_other in F1 by exact NE. destruct (t_buf _ T _ _ _ F1 B1) as [A I]. split; [exact A|].
    apply filter_In. split; [exact I|]. destruct (N.eqb_spec b1 b) as [->|X]; [|reflexivity].
    exfalso. apply NE. exact (t_one _ T _ _ _ _ _ F F1 B B1).
  - intros k1 k2 r1 r2 b1 F1 F2 B1 B2. destruct (key_dec k k1) as [<-|N1]; [rewrite look_del_same in F1; discriminate|].
    destruct (key_dec k k2) as [<-|N2]; [rewrite look_del_same in F2; discriminate|].
    rewrite look_del_other in F1, F2 by assumption. exact (t_one _ T _ _ _ _ _ F1 F2 B1 B2).
  - apply T.
  - intros k1 r1 b1 F1 B1. destruct (key_dec k k1) as [->|NE]; [rewrite look_del_same in F1; discriminate|].
    rewrite look_del_other in F1 by exact NE. exact (t_buf _ T _ _ _ F1 B1).
  - intros k1 k2 r1 r2 b1 F1 F2 B1 B2. destruct (key_dec k k1) as [<-|N1]; [rewrite look_del_same in F1; discriminate|].
    destruct (key_dec k k2) as [<-|N2]; [rewrite look_del_same in F2; discriminate|].
    rewrite look_del_other in F1, F2 by assumption. exact (t_one _ T _ _ _ _ _ F1 F2 B1 B2).
Qed.
Lemma chg_other k k' s s' : chg k s s' -> k <> k' -> look k' (recs s') = look k' (recs s).
Proof.
  intros C NE. destruct C as [s s' R L N'|s s' r n F R L N'|s s' r F B R L N'|s s' r F B R L N'|s s' r b F B R L N'|s s' r F B R L N'];
    rewrite R; try reflexivity; try (now apply look_put_other); now apply look_del_other.
Qed.
(** A mapping that is not the one of any record never comes back. *)
Lemma chg_gone k s s' b : chg k s s' -> tbl s -> b < next s -> ~ In b (live s) -> b < next s' /\ ~ In b (live s').
Proof.
  intros C T B NI. destruct C as [s s' R L N'|s s' r n F R L N'|s s' r F Bf R L N'|s s' r F Bf R L N'|s s' r b' F Bf R L N'|s s' r F Bf R L N'];
    rewrite L, N'; try (split; [lia|assumption]).
  - split; [lia|]. intros [X|X]; [lia|now apply NI].
  - split; [lia|]. intro X. apply filter_In in X as [X _]. now apply NI.
Qed.

(** * The record of one shmget key *)
Section Counted.
Variables (num : bytes -> Z) (z : Z).
Hypothesis NZ : z <> 0%Z.
Let k := KNum z.
Lemma k_posix : posix k = false.
Proof. unfold k. cbn. now apply Z.eqb_neq. Qed.
Lemma close_some r s : look k (recs s) = Some r -> 0 < m_count r -> m_count r < two64 ->
  m_buf r <> None ->
  snd (close_buffer k s) = 0%Z /\
  look k (recs (fst (close_buffer k s))) = (if m_count r =? 1 then None else Some (setc r (m_count r - 1))).
Proof.
  intros F P U B. unfold close_buffer. cbn [verify k negb]. unfold find_rec. fold (look k (recs s)).
  change (KNum z) with k. rewrite F.
  assert (W : wrap64 (m_count r + 2 ^ 64 - 1) = m_count r - 1).
  { unfold wrap64. change (2 ^ 64) with two64. replace (m_count r + two64 - 1) with (m_count r - 1 + 1 * two64) by lia.
    rewrite N.mod_add by discriminate. apply N.mod_small. lia. }
  rewrite W. destruct (N.eqb_spec (m_count r) 1) as [E|E].
  - rewrite E. change (0 <? 1 - 1) with false. cbn iota. destruct (m_buf r) as [b|]; [|congruence]. cbn [fst snd recs].
    split; [reflexivity|apply look_del_same].
  - assert (X : 0 <? m_count r - 1 = true) by (apply N.ltb_lt; lia). rewrite X. cbn [fst snd recs]. split; [reflexivity|apply look_put_same].
Qed.
Lemma close_none s : look k (recs s) = None -> close_buffer k s = (s, E_SHM_NOT_FOUND).
Proof. intro F. unfold close_buffer. cbn [verify k negb]. unfold find_rec. fold (look k (recs s)). change (KNum z) with k. now rewrite F. Qed.
Lemma open_some r o s : look k (recs s) = Some r -> m_count r + 1 < two64 ->
  exists s', open_buffer k o s = (s', 0%Z, m_buf r) /\ look k (recs s') = Some (setc r (m_count r + 1)).
Proof.
  intros F U. unfold open_buffer. cbn [verify k negb]. unfold find_rec. fold (look k (recs s)). change (KNum z) with k. rewrite F.
  eexists. split; [reflexivity|]. cbn [recs]. rewrite look_put_same. unfold wrap64. now rewrite N.mod_small by exact U.
Qed.
Lemma open_none o s : look k (recs s) = None -> (forall n, o <> OsMapFail n) ->
  (exists s' r, open_buffer k o s = (s', 0%Z, Some (next s)) /\ look k (recs s') = Some r /\ m_count r = 1 /\ m_buf r = Some (next s)) \/
  (exists c, open_buffer k o s = (s, c, None) /\ (c < 0)%Z).
Proof.
  intros F NM. unfold open_buffer. cbn [verify k negb]. unfold find_rec. fold (look k (recs s)). change (KNum z) with k. rewrite F.
  rewrite k_posix. destruct o as [n| | |n]; [left|right|right|].
  - eexists. eexists. split; [reflexivity|]. cbn [recs]. rewrite look_put_same. repeat split.
  - eexists. split; [reflexivity|]. unfold E_SHM_GET_FAILED. lia.
  - eexists. split; [reflexivity|]. unfold E_SHM_GET_FAILED. lia.
  - now destruct (NM n).
Qed.

(** What the calls so far say about the record of [k]. *)
Definition kin (s : shm) (h : list call_result) : Prop :=
  opened num k h <= N.of_nat (length h) /\
  match look k (recs s) with
  | None => opened num k h = closed num k h
  | Some r => m_buf r <> None /\ 0 < m_count r /\ m_count r + closed num k h = opened num k h
  end.
(** Addresses given out for [k] that are still attached belong to its record. *)
Definition kadr (s : shm) (h : list call_result) : Prop :=
  forall p o ok c b, In (SOpen p o ok, (c, Some b)) h -> normalize num p = k ->
    b < next s /\ (In b (live s) -> exists r, look k (recs s) = Some r /\ m_buf r = Some b).
(** An address given out for [k] is that of the record while opens outnumber closes. *)
Definition kheld (s : shm) (h : list call_result) : Prop :=
  forall h2 h1 p o ok c b, h = h2 ++ (SOpen p o ok, (c, Some b)) :: h1 -> normalize num p = k ->
    (forall h3 h4, h2 = h3 ++ h4 ->
       closed num k (h4 ++ (SOpen p o ok, (c, Some b)) :: h1) < opened num k (h4 ++ (SOpen p o ok, (c, Some b)) :: h1)) ->
    exists r, look k (recs s) = Some r /\ m_buf r = Some b.

Lemma counts_cons (c : call_result) h :
  opened num k (c :: h) = (if is_open num k c then 1 else 0) + opened num k h /\
  closed num k (c :: h) = (if is_close num k c then 1 else 0) + closed num k h.
Proof. unfold opened, closed. cbn [filter]. destruct (is_open num k c), (is_close num k c); cbn [length]; lia. Qed.
(** How one call changes the record of [k] and what it answers. *)
Inductive kstep (s s' : shm) (c : call_result) : Prop :=
| KIdle : is_open num k c = false -> is_close num k c = false -> look k (recs s') = look k (recs s) ->
    (forall p o ok a b, c = (SOpen p o ok, (a, Some b)) -> normalize num p <> k) -> kstep s s' c
| KSame r : is_open num k c = false -> is_close num k c = false -> look k (recs s) = Some r -> look k (recs s') = Some (setc r (m_count r)) ->
    (forall p o ok a b, c = (SOpen p o ok, (a, Some b)) -> normalize num p <> k) -> kstep s s' c
| KMore r : is_open num k c = true -> is_close num k c = false -> look k (recs s) = Some r -> look k (recs s') = Some (setc r (m_count r + 1)) ->
    (forall p o ok a b, c = (SOpen p o ok, (a, Some b)) -> m_buf r = Some b) -> kstep s s' c
| KFirst r : is_open num k c = true -> is_close num k c = false -> look k (recs s) = None -> look k (recs s') = Some r ->
    m_count r = 1 -> m_buf r = Some (next s) -> next s' = next s + 1 ->
    (forall p o ok a b, c = (SOpen p o ok, (a, Some b)) -> b = next s) -> kstep s s' c
| KLess r : is_open num k c = false -> is_close num k c = true -> look k (recs s) = Some r -> 1 < m_count r ->
    look k (recs s') = Some (setc r (m_count r - 1)) -> (forall p o ok a, c <> (SOpen p o ok, a)) -> kstep s s' c
| KLast r : is_open num k c = false -> is_close num k c = true -> look k (recs s) = Some r -> m_count r = 1 ->
    look k (recs s') = None -> (forall p o ok a, c <> (SOpen p o ok, a)) -> kstep s s' c.
Lemma look_next s k' o s' c b : tbl s -> look k' (recs s) = None -> open_buffer k' o s = (s', c, Some b) -> next s' = next s + 1.
Proof.
  intros T F. unfold open_buffer. destruct (negb (verify k')); [discriminate|]. unfold find_rec. fold (look k' (recs s)). rewrite F.
  destruct o, (posix k'); intro X; try discriminate; injection X as <- _ _; reflexivity.
Qed.
Lemma sh_kstep x s : tbl s -> (forall p n ok, x = SOpen p (OsMapFail n) ok -> normalize num p <> k) ->
  (forall r, look k (recs s) = Some r -> m_buf r <> None /\ 0 < m_count r /\ m_count r + 1 < two64) ->
  kstep s (fst (sh_step num x s)) (x, snd (sh_step num x s)) /\ (exists k', chg k' s (fst (sh_step num x s)) \/
    exists s1, chg k' s s1 /\ chg k' s1 (fst (sh_step num x s))).
Proof.
  intros T NM KI. destruct x as [p o ok|p]; cbn [sh_step]; set (k' := normalize num p) in *.
  - destruct (open_buffer k' o s) as [[s1 a] b] eqn:OB. pose proof (open_chg k' o s) as OC. rewrite OB in OC. cbn [fst] in OC.
    pose proof (close_chg k' s1) as CC.
    assert (CH : forall t, t = fst (if (a <? 0)%Z then (s1, (a, None)) else if ok then (s1, (a, b)) else (fst (close_buffer k' s1), ((-1)%Z, None))) ->
       exists k'0, chg k'0 s t \/ exists s2, chg k'0 s s2 /\ chg k'0 s2 t).
    { intros t ->. exists k'. destruct (a <? 0)%Z, ok; cbn [fst]; auto; right; exists s1; auto. }
    split; [|now apply CH].
    destruct (key_dec k' k) as [E|NE].
    + destruct (look k (recs s)) as [r|] eqn:F.
      * destruct (KI r eq_refl) as (B & P & U). rewrite E in *. destruct (open_some r o s F U) as (s2 & O2 & L2).
        rewrite OB in O2. injection O2 as -> -> ->. change (0 <? 0)%Z with false. cbn iota. destruct ok; cbn [fst snd].
        -- apply (KMore _ _ _ r); auto.
           ++ cbn [is_open]. rewrite <- E. unfold k'. rewrite key_eqb_refl. reflexivity.
           ++ intros p0 o0 ok0 a0 b0 X. injection X as _ _ _ _ X. congruence.
        -- assert (G : m_count (setc r (m_count r + 1)) = m_count r + 1) by reflexivity.
           destruct (close_some _ s2 L2) as [R1 R2]; [rewrite G; lia|rewrite G; lia|exact B|]. rewrite G in R2.
           destruct (N.eqb_spec (m_count r + 1) 1) as [X|_]; [lia|]. replace (m_count r + 1 - 1) with (m_count r) in R2 by lia.
           apply (KSame _ _ _ r); auto.
           ++ cbn [is_open]. rewrite andb_false_r. reflexivity.
           ++ intros p0 o0 ok0 a0 b0 X. discriminate.
      * rewrite E in *. destruct (open_none o s F) as [(s2 & r & O2 & L2 & C2 & B2)|(a2 & O2 & A2)].
        { intros n ->. exact (NM p n ok eq_refl E). }
        -- pose proof (look_next s k o s2 0%Z (next s) T F O2) as NX.
           rewrite OB in O2. injection O2 as -> -> ->. change (0 <? 0)%Z with false. cbn iota. destruct ok; cbn [fst snd].
           ++ apply (KFirst _ _ _ r); auto.
              ** cbn [is_open]. rewrite <- E. unfold k'. rewrite key_eqb_refl. reflexivity.
              ** intros p0 o0 ok0 a0 b0 X. injection X as _ _ _ _ X. congruence.
           ++ destruct (close_some r s2 L2) as [R1 R2]; [lia|rewrite C2; reflexivity|congruence|]. rewrite C2, N.eqb_refl in R2.
              apply KIdle; auto.
              ** cbn [is_open]. rewrite andb_false_r. reflexivity.
              ** now rewrite F, R2.
              ** intros p0 o0 ok0 a0 b0 X. discriminate.
        -- rewrite OB in O2. injection O2 as -> -> ->. apply Z.ltb_lt in A2 as A3. rewrite A3. cbn [fst snd]. apply KIdle; auto.
           ++ cbn [is_open]. replace (0 <=? a2)%Z with false by (symmetry; apply Z.leb_gt; lia). apply andb_false_r.
           ++ intros p0 o0 ok0 a0 b0 X. discriminate.
    + assert (KN : key_eqb k k' = false) by (destruct (key_eqb k k') eqn:Q; [apply key_eqb_eq in Q; congruence|reflexivity]).
      assert (L1 : look k (recs s1) = look k (recs s)) by (apply (chg_other k' k s); auto).
      assert (L3 : look k (recs (fst (close_buffer k' s1))) = look k (recs s1)) by (apply (chg_other k' k s1); auto).
      apply KIdle.
      * cbn [is_open]. fold k'. rewrite KN. destruct (snd _); reflexivity.
      * reflexivity.
      * destruct (a <? 0)%Z, ok; cbn [fst]; congruence.
      * intros p0 o0 ok0 a0 b0 X. injection X as <- _ _ _. exact NE.
  - destruct (close_buffer k' s) as [s1 a] eqn:CB. pose proof (close_chg k' s) as CC. rewrite CB in CC. cbn [fst snd] in *.
    split; [|exists k'; now left]. destruct (key_dec k' k) as [E|NE].
    + destruct (look k (recs s)) as [r|] eqn:F.
      * destruct (KI r eq_refl) as (B & P & U). rewrite E in *. destruct (close_some r s F P) as [R1 R2]; [lia|exact B|].
        rewrite CB in R1, R2. cbn [fst snd] in R1, R2. subst a.
        assert (IC : is_close num k (SClose p, (0%Z, None)) = true) by (cbn [is_close]; fold k'; rewrite E, key_eqb_refl; reflexivity).
        destruct (N.eqb_spec (m_count r) 1) as [X|X].
        -- apply (KLast _ _ _ r); auto. intros; discriminate.
        -- apply (KLess _ _ _ r); auto; [lia|]. intros; discriminate.
      * rewrite E in *. rewrite (close_none s F) in CB. injection CB as <- <-. apply KIdle; auto.
        -- cbn [is_close]. apply andb_false_r.
        -- intros; discriminate.
    + assert (KN : key_eqb k k' = false) by (destruct (key_eqb k k') eqn:Q; [apply key_eqb_eq in Q; congruence|reflexivity]).
      apply KIdle; auto.
      * cbn [is_close]. fold k'. now rewrite KN.
      * apply (chg_other k' k s); auto.
      * intros; discriminate.
Qed.

Lemma chg2_tbl s s' : (exists k', chg k' s s' \/ exists s1, chg k' s s1 /\ chg k' s1 s') -> tbl s -> tbl s'.
Proof. intros (k' & [C|(s1 & C1 & C2)]) T; [exact (tbl_chg _ _ _ C T)|]. exact (tbl_chg _ _ _ C2 (tbl_chg _ _ _ C1 T)). Qed.
Lemma chg2_gone s s' b : (exists k', chg k' s s' \/ exists s1, chg k' s s1 /\ chg k' s1 s') -> tbl s -> b < next s -> ~ In b (live s) ->
  b < next s' /\ ~ In b (live s').
Proof.
  intros (k' & [C|(s1 & C1 & C2)]) T B NI; [exact (chg_gone _ _ _ _ C T B NI)|].
  destruct (chg_gone _ _ _ _ C1 T B NI) as [B1 N1]. exact (chg_gone _ _ _ _ C2 (tbl_chg _ _ _ C1 T) B1 N1).
Qed.
Lemma chg_next k' s s' : chg k' s s' -> next s <= next s'.
Proof. intro C. destruct C; lia. Qed.
Lemma chg2_next s s' : (exists k', chg k' s s' \/ exists s1, chg k' s s1 /\ chg k' s1 s') -> next s <= next s'.
Proof. intros (k' & [C|(s1 & C1 & C2)]); [exact (chg_next _ _ _ C)|]. pose proof (chg_next _ _ _ C1). pose proof (chg_next _ _ _ C2). lia. Qed.
(** A mapping whose record goes away is not attached any more. *)
Lemma chg2_dropped s s' r b : (exists k', chg k' s s' \/ exists s1, chg k' s s1 /\ chg k' s1 s') -> tbl s ->
  look k (recs s) = Some r -> m_buf r = Some b -> look k (recs s') = None -> ~ In b (live s').
Proof.
  assert (ONE : forall k' t t', chg k' t t' -> tbl t -> forall r, look k (recs t) = Some r -> m_buf r = Some b ->
     look k (recs t') = None -> b < next t' /\ ~ In b (live t')).
  { intros k' t t' C T q L B L'. destruct (t_buf _ T _ _ _ L B) as [NB IB]. destruct (key_dec k' k) as [->|NE].
    - destruct C as [s1 s2 R L0 N'|s1 s2 q2 n F R L0 N'|s1 s2 q2 F Bf R L0 N'|s1 s2 q2 F Bf R L0 N'|s1 s2 q2 b' F Bf R L0 N'|s1 s2 q2 F Bf R L0 N'];
        try (rewrite R, look_put_same in L'; discriminate); try congruence.
      rewrite L0, N'. split; [exact NB|]. intro X. apply filter_In in X as [_ X].
      rewrite F in L. injection L as ->. rewrite Bf in B. injection B as ->. rewrite N.eqb_refl in X. discriminate.
    - rewrite (chg_other _ _ _ _ C NE) in L'. congruence. }
  intros (k' & [C|(s1 & C1 & C2)]) T L B L'; [exact (proj2 (ONE _ _ _ C T r L B L'))|].
  destruct (look k (recs s1)) as [r1|] eqn:L1.
  - assert (B1 : m_buf r1 = Some b).
    { destruct (key_dec k' k) as [->|NE].
      - destruct C1 as [t1 t2 R L0 N'|t1 t2 q2 n F R L0 N'|t1 t2 q2 F Bf R L0 N'|t1 t2 q2 F Bf R L0 N'|t1 t2 q2 b' F Bf R L0 N'|t1 t2 q2 F Bf R L0 N'];
          try congruence.
        + rewrite R, look_put_same in L1. injection L1 as <-. cbn. congruence.
        + rewrite R, look_del_same in L1. discriminate.
      - rewrite (chg_other _ _ _ _ C1 NE) in L1. congruence. }
    exact (proj2 (ONE _ _ _ C2 (tbl_chg _ _ _ C1 T) r1 L1 B1 L')).
  - destruct (ONE _ _ _ C1 T r L B L1) as [NB NI]. exact (proj2 (chg_gone _ _ _ _ C2 (tbl_chg _ _ _ C1 T) NB NI)).
Qed.

Lemma inv l : no_shmat_failure num k l -> N.of_nat (length l) + 1 < two64 ->
  let (s, h) := sh_run num l in length h = length l /\ tbl s /\ kin s h /\ kadr s h /\ kheld s h.
Proof.
  induction l as [|x l IH] using rev_ind; intros NM LEN.
  - cbn. split; [reflexivity|]. split; [split; [intros b []|discriminate|discriminate]|]. split; [|split].
    + split; [cbn; lia|reflexivity].
    + intros p o ok c b [].
    + intros h2 h1 p o ok c b X. destruct h2; discriminate.
  - assert (NM' : no_shmat_failure num k l) by (intros p n ok I; apply (NM p n ok); apply in_or_app; now left).
    rewrite app_length in LEN. cbn [length] in LEN. specialize (IH NM' ltac:(lia)).
    unfold sh_run in *. rewrite fold_left_app. cbn [fold_left]. destruct (fold_left (sh_next num) l (shm0, [])) as [s h].
    destruct IH as (LH & T & (KO & KI) & KA & KH). unfold sh_next. cbn [fst snd].
    assert (NX : forall p n ok, x = SOpen p (OsMapFail n) ok -> normalize num p <> k).
    { intros p n ok ->. apply (NM p n ok). apply in_or_app. right. now left. }
    assert (KR : forall r, look k (recs s) = Some r -> m_buf r <> None /\ 0 < m_count r /\ m_count r + 1 < two64).
    { intros r F. rewrite F in KI. destruct KI as (B & P & E). split; [exact B|]. split; [exact P|]. lia. }
    destruct (sh_kstep x s T NX KR) as [KS CH]. destruct (sh_step num x s) as [s' c] eqn:ST. cbn [fst snd] in KS, CH.
    destruct (counts_cons (x, c) h) as [CO CC].
    pose proof (chg2_tbl _ _ CH T) as T'. pose proof (chg2_next _ _ CH) as NL.
    split; [cbn [length]; rewrite app_length; cbn [length]; lia|]. split; [exact T'|].
    (* the buffer of the record is kept, dropped, or new *)
    assert (KI' : kin s' ((x, c) :: h)).
    { unfold kin. rewrite CO, CC. cbn [length]. split; [destruct (is_open num k (x, c)); lia|].
      destruct KS as [O1 O2 L N0|r O1 O2 L L' N0|r O1 O2 L L' N0|r O1 O2 L L' C1 B1 N1 N0|r O1 O2 L G L' N0|r O1 O2 L G L' N0]; rewrite O1, O2; try rewrite L'.
      - rewrite L. destruct (look k (recs s)); lia || (destruct KI as (B & P & E); split; [exact B|]; lia).
      - rewrite L in KI. destruct KI as (B & P & E). split; [exact B|]. cbn [m_count setc]. lia.
      - rewrite L in KI. destruct KI as (B & P & E). split; [exact B|]. cbn [m_count setc]. lia.
      - rewrite L in KI. split; [congruence|]. lia.
      - rewrite L in KI. destruct KI as (B & P & E). split; [exact B|]. cbn [m_count setc]. lia.
      - rewrite L in KI. destruct KI as (B & P & E). lia. }
    assert (KEEP : forall r b, look k (recs s) = Some r -> m_buf r = Some b ->
       (exists r', look k (recs s') = Some r' /\ m_buf r' = Some b) \/ look k (recs s') = None).
    { intros r b F B. destruct KS as [O1 O2 L N0|q O1 O2 L L' N0|q O1 O2 L L' N0|q O1 O2 L L' C1 B1 N1 N0|q O1 O2 L G L' N0|q O1 O2 L G L' N0].
      - left. exists r. now rewrite L.
      - rewrite F in L. injection L as <-. left. eexists. split; [exact L'|exact B].
      - rewrite F in L. injection L as <-. left. eexists. split; [exact L'|exact B].
      - congruence.
      - rewrite F in L. injection L as <-. left. eexists. split; [exact L'|exact B].
      - now right. }
    assert (NEW : forall p o ok a b, x = SOpen p o ok -> c = (a, Some b) -> normalize num p = k ->
       exists r', look k (recs s') = Some r' /\ m_buf r' = Some b).
    { intros p o ok a b -> -> E. destruct KS as [O1 O2 L N0|q O1 O2 L L' N0|q O1 O2 L L' N0|q O1 O2 L L' C1 B1 N1 N0|q O1 O2 L G L' N0|q O1 O2 L G L' N0].
      - exfalso. exact (N0 p o ok a b eq_refl E).
      - exfalso. exact (N0 p o ok a b eq_refl E).
      - eexists. split; [exact L'|]. exact (N0 p o ok a b eq_refl).
      - eexists. split; [exact L'|]. rewrite B1. f_equal. symmetry. exact (N0 p o ok a b eq_refl).
      - exfalso. exact (N0 p o ok _ eq_refl).
      - exfalso. exact (N0 p o ok _ eq_refl). }
    split; [exact KI'|]. split.
    + intros p o ok a b [X|I] E.
      * injection X as X Y. destruct (NEW p o ok a b X Y E) as (r' & L' & B'). split; [exact (proj1 (t_buf _ T' _ _ _ L' B'))|].
        intros _. exists r'. now split.
      * destruct (KA p o ok a b I E) as [LT LV]. split; [lia|]. intro I'.
        destruct (in_dec N.eq_dec b (live s)) as [IL|NIL]; [|destruct (chg2_gone _ _ b CH T LT NIL); contradiction].
        destruct (LV IL) as (r & F & B). destruct (KEEP r b F B) as [KK|D]; [exact KK|].
        exfalso. exact (chg2_dropped _ _ r b CH T F B D I').
    + intros h2 h1 p o ok a b X E POS. destruct h2 as [|c2 h2]; cbn [app] in X.
      * injection X as X Y _. exact (NEW p o ok a b X Y E).
      * injection X as X Y. destruct (KH h2 h1 p o ok a b Y E) as (r & F & B).
        { intros h3 h4 X4. apply (POS (c2 :: h3) h4). now rewrite X4. }
        destruct (KEEP r b F B) as [KK|D]; [exact KK|]. exfalso.
        pose proof (POS [] (c2 :: h2) eq_refl) as Q. cbn [app] in Q. rewrite <- X, <- Y in Q.
        destruct KI' as [_ KI']. rewrite D in KI'. lia.
Qed.
End Counted.

(** * C41 for numbered regions *)
(** Whatever calls are made on whatever regions, and whatever the system answers to them:
    closes of a region never outnumber its opens; an address that an open returned is
    attached for as long as opens outnumber closes; and once they are equal, no address
    ever returned for the region is attached. *)
Theorem C41_numbered_partial num z l :
  z <> 0%Z -> no_shmat_failure num (KNum z) l -> N.of_nat (length l) + 1 < 2 ^ 64 ->
  let s := fst (sh_run num l) in let h := snd (sh_run num l) in
  closed num (KNum z) h <= opened num (KNum z) h /\
  (forall h2 h1 p o ok c b, h = h2 ++ (SOpen p o ok, (c, Some b)) :: h1 -> normalize num p = KNum z ->
     (forall h3 h4, h2 = h3 ++ h4 ->
        closed num (KNum z) (h4 ++ (SOpen p o ok, (c, Some b)) :: h1) < opened num (KNum z) (h4 ++ (SOpen p o ok, (c, Some b)) :: h1)) ->
     In b (live s)) /\
  (closed num (KNum z) h = opened num (KNum z) h ->
     forall p o ok c b, In (SOpen p o ok, (c, Some b)) h -> normalize num p = KNum z -> ~ In b (live s)).
Proof.
  intros NZ NM LEN s h. pose proof (inv num z NZ l NM LEN) as J. unfold s, h. destruct (sh_run num l) as [s0 h0]. cbn [fst snd].
  destruct J as (LH & T & (KO & KI) & KA & KH). split; [|split].
  - destruct (look (KNum z) (recs s0)); lia.
  - intros h2 h1 p o ok c b X E POS. destruct (KH h2 h1 p o ok c b X E POS) as (r & L & B). exact (proj2 (t_buf _ T _ _ _ L B)).
  - intros EQ p o ok c b I E IL. destruct (KA p o ok c b I E) as [_ LV]. destruct (LV IL) as (r & L & B). rewrite L in KI. lia.
Qed.
Print Assumptions C41_numbered_partial.
(** * Where it fails *)
(** A region named by a path: two opens, one close, and the address the other user holds
    is no longer attached. *)
Definition xnum (p : bytes) : Z := Z.of_N (fold_left (fun a c => a * 10 + (c - 48)) p 0).
Definition a_path : bytes := [47; 98; 117; 115].
Theorem C41_path_unmapped_early_refuted : exists l b,
  let s := fst (sh_run xnum l) in let h := snd (sh_run xnum l) in
  In (SOpen a_path (OsOk 4096) true, (0%Z, Some b)) h /\
  closed xnum (KPath a_path) h + 1 = opened xnum (KPath a_path) h /\ ~ In b (live s).
Proof.
  exists [SOpen a_path (OsOk 4096) true; SOpen a_path (OsOk 4096) true; SClose a_path], 1.
  vm_compute. split; [auto|]. split; [reflexivity|]. intros [].
Qed.
Print Assumptions C41_path_unmapped_early_refuted.
(** One open and one close leave it attached, and its descriptor open. *)
Theorem C41_path_never_unmapped_refuted : exists l b,
  let s := fst (sh_run xnum l) in let h := snd (sh_run xnum l) in
  closed xnum (KPath a_path) h = opened xnum (KPath a_path) h /\
  In (SOpen a_path (OsOk 4096) true, (0%Z, Some b)) h /\ In b (live s) /\ fds s = 1.
Proof.
  exists [SOpen a_path (OsOk 4096) true; SClose a_path], 1.
  vm_compute. split; [reflexivity|]. split; [auto|]. split; [auto|reflexivity].
Qed.
Print Assumptions C41_path_never_unmapped_refuted.
(** shmat is not checked: an open of a numbered region can report success without an
    address, and the close that follows fails. *)
Theorem C41_attach_unchecked_refuted : exists l,
  snd (sh_run xnum l) = [(SClose [55], (E_SHM_CLOSE_FAILED, None)); (SOpen [55] (OsMapFail 4096) true, (0%Z, None))].
Proof. exists [SOpen [55] (OsMapFail 4096) true; SClose [55]]. vm_compute. reflexivity. Qed.
Print Assumptions C41_attach_unchecked_refuted.
(** It is not one unlucky count: however many users a path has, two or more, the last
    but one to close takes the region away from the last. *)
Lemma posix_opens num p n : verify (normalize num p) = true -> posix (normalize num p) = true -> N.of_nat n + 1 < two64 ->
  exists s h r, sh_run num (repeat (SOpen p (OsOk 1) true) (S n)) = (s, h) /\ look (normalize num p) (recs s) = Some r /\
    m_count r = N.of_nat n /\ m_buf r = Some 1 /\ live s = [1].
Proof.
  intros V P. induction n as [|n IH]; intro LEN.
  - cbn [repeat]. unfold sh_run. cbn [fold_left]. unfold sh_next. cbn [fst snd sh_step]. unfold open_buffer. rewrite V. cbn [negb].
    unfold find_rec. cbn [recs shm0 find option_map]. rewrite P. change (0 <? 0)%Z with false. cbn iota.
    eexists. eexists. eexists. split; [reflexivity|]. cbn [recs live]. rewrite look_put_same. split; [reflexivity|]. repeat split.
  - destruct IH as (s & h & r & R & L & C & B & LV); [lia|].
    change (S (S n)) with (1 + S n)%nat. rewrite Nat.add_comm, repeat_app. change (repeat (SOpen p (OsOk 1) true) 1) with [SOpen p (OsOk 1) true]. unfold sh_run in *. rewrite fold_left_app.
    rewrite R. cbn [fold_left]. unfold sh_next. cbn [fst snd sh_step]. unfold open_buffer. rewrite V. cbn [negb].
    unfold find_rec. fold (look (normalize num p) (recs s)). rewrite L. change (0 <? 0)%Z with false. cbn iota.
    eexists. eexists. eexists. split; [reflexivity|]. cbn [recs live]. rewrite look_put_same. split; [reflexivity|]. cbn [m_count m_buf].
    split; [|split; assumption]. unfold wrap64. rewrite C, N.mod_small by lia. lia.
Qed.
Lemma posix_closes num p : verify (normalize num p) = true -> forall n s h r, N.of_nat (S n) < two64 ->
  look (normalize num p) (recs s) = Some r -> m_count r = N.of_nat (S n) -> m_buf r = Some 1 -> live s = [1] ->
  live (fst (fold_left (sh_next num) (repeat (SClose p) (S n)) (s, h))) = [].
Proof.
  intro V. induction n as [|n IH]; intros s h r LEN L C B LV.
  - cbn [repeat fold_left]. unfold sh_next. cbn [fst snd sh_step]. unfold close_buffer. rewrite V. cbn [negb].
    unfold find_rec. fold (look (normalize num p) (recs s)). rewrite L, C, B.
    replace (wrap64 (N.of_nat 1 + 2 ^ 64 - 1)) with 0 by reflexivity. change (0 <? 0) with false. cbn iota.
    cbn [fst live]. rewrite LV. reflexivity.
  - cbn [repeat fold_left] in *. set (a := sh_next num (s, h) (SClose p)).
    assert (W : wrap64 (m_count r + 2 ^ 64 - 1) = N.of_nat (S n)).
    { unfold wrap64. change (2 ^ 64) with two64. rewrite C. replace (N.of_nat (S (S n)) + two64 - 1) with (N.of_nat (S n) + 1 * two64) by lia.
      rewrite N.mod_add by discriminate. apply N.mod_small. lia. }
    assert (A : exists h', a = ({| recs := put_rec (normalize num p) (setc r (N.of_nat (S n))) (recs s); live := live s; next := next s; fds := fds s |}, h')).
    { unfold a, sh_next. cbn [fst snd sh_step]. unfold close_buffer. rewrite V. cbn [negb].
      unfold find_rec. fold (look (normalize num p) (recs s)). rewrite L. rewrite W.
      assert (X : 0 <? N.of_nat (S n) = true) by (apply N.ltb_lt; lia). rewrite X. eexists. reflexivity. }
    destruct A as [h' ->]. apply (IH _ h' (setc r (N.of_nat (S n)))); [lia| |reflexivity|exact B|exact LV].
    cbn [recs]. apply look_put_same.
Qed.
Theorem C41_path_early num p n :
  verify (normalize num p) = true -> posix (normalize num p) = true -> N.of_nat n + 2 < 2 ^ 64 ->
  live (fst (sh_run num (repeat (SOpen p (OsOk 1) true) (n + 2) ++ repeat (SClose p) (n + 1)))) = [].
Proof.
  intros V P LEN. change (2 ^ 64) with two64 in LEN. replace (n + 2)%nat with (S (S n)) by lia. replace (n + 1)%nat with (S n) by lia.
  destruct (posix_opens num p (S n) V P ltac:(lia)) as (s & h & r & R & L & C & B & LV).
  unfold sh_run in *. rewrite fold_left_app, R. apply (posix_closes num p V n s h r); auto. lia.
Qed.
Print Assumptions C41_path_early.

(** * Cases *)
(** Region 7 is opened twice and closed once, region 8 is opened, an open of 7 whose
    contents do not fit is undone: 7 and 8 are attached.  After the last close only 8 is. *)
Definition a_history : list sop :=
  [SOpen [55] (OsOk 4096) true; SOpen [56] (OsOk 8192) true; SOpen [55] (OsOk 4096) true; SOpen [55] OsGetFail false; SClose [55]].
Example C41_case :
  no_shmat_failure xnum (KNum 7) (a_history ++ [SClose [55]]) /\
  map snd (snd (sh_run xnum a_history)) = [(0%Z, None); ((-1)%Z, None); (0%Z, Some 1); (0%Z, Some 2); (0%Z, Some 1)] /\
  live (fst (sh_run xnum a_history)) = [2; 1] /\ live (fst (sh_run xnum (a_history ++ [SClose [55]]))) = [2] /\
  closed xnum (KNum 7) (snd (sh_run xnum a_history)) = 1 /\ opened xnum (KNum 7) (snd (sh_run xnum a_history)) = 2.
Proof.
  split.
  - intros p n ok I. cbn [a_history app In] in I. intuition discriminate.
  - vm_compute. repeat split.
Qed.
