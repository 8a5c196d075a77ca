From Verif Require Import Base BufferSpec Buffer BufDynProof.
Local Open Scope N_scope.

(* ---------------------------------------------------------------- sizes *)
Definition pad (s : N) : N := 16 * ((s + 15) / 16).
Definition fl (s : N) : N := 32 + pad s.

Lemma padding_pad s : s < 2 ^ 63 -> padding_size s = pad s.
Proof.
  intros H. unfold padding_size, pad, align_size.
  destruct (N.eqb_spec (s mod 16) 0) as [E|E]; [lia|].
  rewrite wrap_lt; lia.
Qed.
Lemma head_size_32 : head_size = 32.
Proof. reflexivity. Qed.
Lemma full_fl s : s < 2 ^ 62 -> full_size s = fl s.
Proof. intros H. unfold full_size, fl. rewrite head_size_32, padding_pad by lia. apply wrap_lt. unfold pad. lia. Qed.
Lemma pad_ge s : s <= pad s. Proof. unfold pad. lia. Qed.
Lemma pad_lt s : pad s < s + 16. Proof. unfold pad. lia. Qed.
Lemma pad_add a b : pad (a + b) <= pad a + pad b. Proof. unfold pad. lia. Qed.
Lemma pad_mono a b : a <= b -> pad a <= pad b. Proof. unfold pad. lia. Qed.
Lemma fl_ge s : 32 + s <= fl s. Proof. unfold fl. pose proof (pad_ge s). lia. Qed.
Lemma fl_lt s : fl s < s + 48. Proof. unfold fl. pose proof (pad_lt s). lia. Qed.

(* ---------------------------------------------------------------- ring index *)
Definition idx (c h i : nat) : nat := ((h + i) mod c)%nat.
Lemma mod_lt2 x c : (x < 2 * c)%nat -> (x mod c = if Nat.ltb x c then x else x - c)%nat.
Proof.
  intros H. destruct (Nat.ltb_spec x c) as [L|L].
  - now apply Nat.mod_small.
  - replace x with ((x - c) + 1 * c)%nat at 1 by lia. rewrite Nat.mod_add by lia. apply Nat.mod_small. lia.
Qed.
Lemma idx_eq c h i : (h < c)%nat -> (i <= c)%nat -> idx c h i = (if Nat.ltb (h + i) c then h + i else h + i - c)%nat.
Proof. intros. apply mod_lt2. lia. Qed.
Lemma idx_lt c h i : (h < c)%nat -> (i <= c)%nat -> (idx c h i < c)%nat.
Proof. intros. rewrite idx_eq by lia. destruct (Nat.ltb_spec (h + i) c); lia. Qed.
Lemma idx_inj c h i j : (h < c)%nat -> (i < c)%nat -> (j < c)%nat -> idx c h i = idx c h j -> i = j.
Proof. intros Hh Hi Hj. rewrite !idx_eq by lia. destruct (Nat.ltb_spec (h + i) c), (Nat.ltb_spec (h + j) c); lia. Qed.
Lemma idx_0 c h : (h < c)%nat -> idx c h 0 = h.
Proof. intros. rewrite idx_eq by lia. destruct (Nat.ltb_spec (h + 0) c); lia. Qed.
Lemma idx_S c h i : (h < c)%nat -> (i < c)%nat -> ((idx c h i + 1) mod c)%nat = idx c h (S i).
Proof.
  intros. rewrite (idx_eq c h i) by lia. rewrite (idx_eq c h (S i)) by lia.
  destruct (Nat.ltb_spec (h + i) c); rewrite mod_lt2 by lia;
  repeat match goal with |- context[Nat.ltb ?a ?b] => destruct (Nat.ltb_spec a b) end; lia.
Qed.
Lemma idx_pred c h i : (h < c)%nat -> (i < c)%nat -> ((idx c h (S i) + c - 1) mod c)%nat = idx c h i.
Proof.
  intros. rewrite (idx_eq c h i) by lia. rewrite (idx_eq c h (S i)) by lia.
  destruct (Nat.ltb_spec (h + S i) c); rewrite mod_lt2 by lia;
  repeat match goal with |- context[Nat.ltb ?a ?b] => destruct (Nat.ltb_spec a b) end; lia.
Qed.
Lemma idx_shift c h i : (h < c)%nat -> (i < c)%nat -> idx c ((h + 1) mod c) i = idx c h (S i).
Proof.
  intros. rewrite (idx_eq c h (S i)) by lia. unfold idx. rewrite (mod_lt2 (h + 1)) by lia.
  destruct (Nat.ltb_spec (h + 1) c); rewrite mod_lt2 by lia;
  repeat match goal with |- context[Nat.ltb ?a ?b] => destruct (Nat.ltb_spec a b) end; lia.
Qed.
Lemma pre_head_lt c h : (0 < c)%nat -> ((h + c - 1) mod c < c)%nat.
Proof. intros. apply Nat.mod_upper_bound. lia. Qed.
Lemma idx_unshift c h i : (2 <= c)%nat -> (h < c)%nat -> (i < c)%nat -> idx c ((h + c - 1) mod c) (S i) = idx c h i.
Proof.
  intros. rewrite (idx_eq c h i) by lia. unfold idx. rewrite (mod_lt2 (h + c - 1)) by lia.
  destruct (Nat.ltb_spec (h + c - 1) c); rewrite mod_lt2 by lia;
  repeat match goal with |- context[Nat.ltb ?a ?b] => destruct (Nat.ltb_spec a b) end; lia.
Qed.

Lemma upd_same {A} (f : nat -> A) k v : upd f k v k = v.
Proof. unfold upd. now rewrite Nat.eqb_refl. Qed.
Lemma upd_other {A} (f : nat -> A) k v i : i <> k -> upd f k v i = f i.
Proof. intros H. unfold upd. now destruct (Nat.eqb_spec i k). Qed.

(* ---------------------------------------------------------------- memory *)
(** [m'] differs from [m] only inside [p, p+n). *)
Definition same_out (m m' : memory) (p n : N) : Prop := forall x, (x < p \/ p + n <= x) -> m' x = m x.
Definition same_in (m m' : memory) (p n : N) : Prop := forall x, p <= x < p + n -> m' x = m x.

Lemma same_out_refl m p n : same_out m m p n. Proof. intros x _. reflexivity. Qed.
Lemma same_out_trans m1 m2 m3 p n : same_out m1 m2 p n -> same_out m2 m3 p n -> same_out m1 m3 p n.
Proof. intros H1 H2 x Hx. rewrite H2, H1 by exact Hx. reflexivity. Qed.
Lemma same_out_mono m m' p n q k : same_out m m' p n -> q <= p -> p + n <= q + k -> same_out m m' q k.
Proof. intros H Hq Hk x Hx. apply H. lia. Qed.

Lemma read_hdr_frame m m' a : same_in m m' a 24 -> read_hdr m' a = read_hdr m a.
Proof.
  intros H. unfold read_hdr. rewrite (H a) by lia.
  destruct (m a) as [| |h|]; try reflexivity.
  replace (forallb (fun i => is_rest (m' (a + N.of_nat i))) (seq 1 23))
    with (forallb (fun i => is_rest (m (a + N.of_nat i))) (seq 1 23)); [reflexivity|].
  assert (G : forall l, (forall i, In i l -> (i < 24)%nat) ->
    forallb (fun i => is_rest (m (a + N.of_nat i))) l = forallb (fun i => is_rest (m' (a + N.of_nat i))) l).
  { induction l as [|i l IH]; intros Hl; [reflexivity|]. cbn [forallb].
    rewrite (H (a + N.of_nat i)) by (specialize (Hl i (or_introl eq_refl)); lia).
    rewrite IH; [reflexivity|]. intros j Hj. apply Hl. now right. }
  apply G. intros i Hi. apply in_seq in Hi. lia.
Qed.

Lemma write_hdr_ok sz m a h : a + 24 <= sz ->
  exists m', write_hdr sz m a h = Some m' /\ read_hdr m' a = Some h /\ same_out m m' a 24.
Proof.
  intros H. unfold write_hdr, block_sizeof. destruct (N.leb_spec (a + 24) sz); [|lia].
  eexists. split; [reflexivity|]. split.
  - unfold read_hdr. rewrite N.eqb_refl.
    assert (G : forall l, (forall i, In i l -> (1 <= i < 24)%nat) ->
      forallb (fun i => is_rest ((fun x => if x =? a then HdrStart h
          else if (a <? x) && (x <? a + 24) then HdrRest else m x) (a + N.of_nat i))) l = true).
    { induction l as [|i l IH]; intros Hl; [reflexivity|]. cbn [forallb].
      specialize (Hl i (or_introl eq_refl)) as Hi.
      destruct (N.eqb_spec (a + N.of_nat i) a) as [E|_]; [lia|].
      destruct (N.ltb_spec a (a + N.of_nat i)); [|lia].
      destruct (N.ltb_spec (a + N.of_nat i) (a + 24)); [|lia]. cbn [andb is_rest].
      apply IH. intros j Hj. apply Hl. now right. }
    rewrite G; [reflexivity|]. intros i Hi. apply in_seq in Hi. lia.
  - intros x Hx. destruct (N.eqb_spec x a); [lia|].
    destruct (N.ltb_spec a x), (N.ltb_spec x (a + 24)); cbn [andb]; try reflexivity; lia.
Qed.

(** [m] holds the bytes [d] at [p]. *)
Definition holds (m : memory) (p : N) (d : bytes) : Prop :=
  forall i b, nth_error d i = Some b -> m (p + N.of_nat i) = Dat b.

Lemma holds_frame m m' p d : same_in m m' p (N.of_nat (length d)) -> holds m p d -> holds m' p d.
Proof.
  intros H Hd i b Hi. rewrite H; [now apply Hd|].
  assert (i < length d)%nat by (apply nth_error_Some; congruence). lia.
Qed.

Lemma holds_app m p d e : holds m p d -> holds m (p + N.of_nat (length d)) e -> holds m p (d ++ e).
Proof.
  intros H1 H2 i b Hi. destruct (Nat.ltb_spec i (length d)) as [L|L].
  - apply H1. now rewrite nth_error_app1 in Hi.
  - rewrite nth_error_app2 in Hi by exact L. apply H2 in Hi.
    replace (p + N.of_nat (length d) + N.of_nat (i - length d)) with (p + N.of_nat i) in Hi by lia. exact Hi.
Qed.

Lemma write_data_ok sz m p d : p + N.of_nat (length d) <= sz ->
  exists m', write_data sz m p d = Some m' /\ holds m' p d /\ same_out m m' p (N.of_nat (length d)).
Proof.
  intros H. unfold write_data. destruct (N.leb_spec (p + N.of_nat (length d)) sz); [|lia].
  eexists. split; [reflexivity|]. split.
  - intros i b Hi. assert (i < length d)%nat by (apply nth_error_Some; congruence).
    destruct (N.leb_spec p (p + N.of_nat i)); [|lia].
    destruct (N.ltb_spec (p + N.of_nat i) (p + N.of_nat (length d))); [|lia]. cbn [andb].
    replace (N.to_nat (p + N.of_nat i - p)) with i by lia. f_equal. now apply nth_error_nth.
  - intros x Hx. destruct (N.leb_spec p x), (N.ltb_spec x (p + N.of_nat (length d))); cbn [andb]; try reflexivity; lia.
Qed.

Lemma move_mem_ok sz m dst src d : dst + N.of_nat (length d) <= sz -> src + N.of_nat (length d) <= sz ->
  holds m src d ->
  exists m', move_mem sz m dst src (N.of_nat (length d)) = Some m' /\ holds m' dst d /\
             same_out m m' dst (N.of_nat (length d)).
Proof.
  intros H1 H2 Hd. unfold move_mem.
  destruct (N.leb_spec (dst + N.of_nat (length d)) sz); [|lia].
  destruct (N.leb_spec (src + N.of_nat (length d)) sz); [|lia]. cbn [andb].
  eexists. split; [reflexivity|]. split.
  - intros i b Hi. assert (i < length d)%nat by (apply nth_error_Some; congruence).
    destruct (N.leb_spec dst (dst + N.of_nat i)); [|lia].
    destruct (N.ltb_spec (dst + N.of_nat i) (dst + N.of_nat (length d))); [|lia]. cbn [andb].
    replace (src + (dst + N.of_nat i - dst)) with (src + N.of_nat i) by lia. now apply Hd.
  - intros x Hx. destruct (N.leb_spec dst x), (N.ltb_spec x (dst + N.of_nat (length d))); cbn [andb]; try reflexivity; lia.
Qed.

Lemma read_data_ok d : forall m p, holds m p d -> read_data m p (length d) = Some d.
Proof.
  induction d as [|b d IH]; intros m p H; [reflexivity|]. cbn [length read_data].
  assert (m p = Dat b) as ->. { specialize (H 0%nat b eq_refl). rewrite N.add_0_r in H. exact H. }
  rewrite IH; [reflexivity|]. intros i c Hi.
  specialize (H (S i) c Hi). replace (p + 1 + N.of_nat i) with (p + N.of_nat (S i)) by lia. exact H.
Qed.

Lemma holds_skip m p d n : (n <= length d)%nat -> holds m p d -> holds m (p + N.of_nat n) (skipn n d).
Proof.
  intros Hn H i b Hi. rewrite nth_error_skipn_add in Hi.
  specialize (H (n + i)%nat b).
  replace (p + N.of_nat n + N.of_nat i) with (p + N.of_nat (n + i)) by lia. apply H.
  exact Hi.
Qed.

(* ---------------------------------------------------------------- layout *)
Notation pblk := (N * blk)%type.
Definition bsize (x : blk) : N := N.of_nat (length (raw x)).

(** Blocks in increasing, non-overlapping order between [lo] and [hi]. *)
Fixpoint chain (lo : N) (l : list pblk) (hi : N) : Prop :=
  match l with
  | [] => lo <= hi
  | (a, x) :: r => lo <= a /\ chain (a + fl (bsize x)) r hi
  end.

Lemma chain_le l : forall lo hi, chain lo l hi -> lo <= hi.
Proof. induction l as [|[a x] l IH]; cbn [chain]; intros lo hi H; [exact H|]. destruct H as [H1 H2]. apply IH in H2. lia. Qed.
Lemma chain_lo l : forall lo lo' hi, chain lo l hi -> lo' <= lo -> chain lo' l hi.
Proof. destruct l as [|[a x] l]; cbn [chain]; intros lo lo' hi H L; [lia|]. destruct H. split; [lia|assumption]. Qed.
Lemma chain_hi l : forall lo hi hi', chain lo l hi -> hi <= hi' -> chain lo l hi'.
Proof. induction l as [|[a x] l IH]; cbn [chain]; intros lo hi hi' H L; [lia|]. destruct H as [H1 H2]. split; [exact H1|]. now apply IH with hi. Qed.
Lemma chain_app l1 : forall l2 lo hi, chain lo (l1 ++ l2) hi <-> exists mid, chain lo l1 mid /\ chain mid l2 hi.
Proof.
  induction l1 as [|[a x] l1 IH]; intros l2 lo hi; cbn [app chain].
  - split.
    + intros H. exists lo. split; [lia|exact H].
    + intros (mid & H1 & H2). now apply chain_lo with mid.
  - rewrite IH. split.
    + intros (H & mid & H1 & H2). exists mid. auto.
    + intros (mid & (H & H1) & H2). split; [exact H|]. exists mid. auto.
Qed.
Lemma chain_In l : forall lo hi a x, chain lo l hi -> In (a, x) l -> lo <= a /\ a + fl (bsize x) <= hi.
Proof.
  induction l as [|[b y] l IH]; intros lo hi a x H Hin; [destruct Hin|].
  cbn [chain] in H. destruct H as [H1 H2]. destruct Hin as [E|Hin].
  - inversion E; subst. split; [exact H1|]. now apply chain_le in H2.
  - destruct (IH _ _ _ _ H2 Hin) as [H3 H4]. pose proof (fl_ge (bsize y)). lia.
Qed.

Definition head_at (t : N) (l : list pblk) : N := match l with [] => t | (a, _) :: _ => a end.

(** The two shapes of the ring: in one piece, or wrapped around the end. *)
Inductive layout (sz t : N) : list pblk -> Prop :=
| lay_lin l : chain 0 l t -> t <= sz -> (l = [] -> t = 0) -> layout sz t l
| lay_wrap a x hi low : chain a ((a, x) :: hi) sz -> chain 0 low t -> t < a -> layout sz t ((a, x) :: hi ++ low).

Lemma layout_lin sz t l : layout sz t l -> head_at t l <= t ->
  chain (head_at t l) l t /\ t <= sz /\ (l = [] -> t = 0).
Proof.
  intros H Hle. destruct H as [l H1 H2 H3|a x hi low H1 H2 H3].
  - split; [|auto]. destruct l as [|[a x] l]; cbn [head_at chain] in *; [lia|]. destruct H1. split; [lia|assumption].
  - cbn [head_at] in Hle. lia.
Qed.
Lemma layout_wrap sz t l : layout sz t l -> t < head_at t l ->
  exists a x hi low, l = (a, x) :: hi ++ low /\ chain a ((a, x) :: hi) sz /\ chain 0 low t /\ t < a.
Proof.
  intros H Hlt. destruct H as [l H1 H2 H3|a x hi low H1 H2 H3].
  - exfalso. destruct l as [|[a x] l]; cbn [head_at chain] in *; [lia|].
    destruct H1 as [_ H1]. apply chain_le in H1. pose proof (fl_ge (bsize x)). lia.
  - exists a, x, hi, low. auto.
Qed.
Lemma layout_bound sz t l a x : layout sz t l -> In (a, x) l -> a + fl (bsize x) <= sz.
Proof.
  intros H Hin. destruct H as [l H1 H2 H3|b y hi low H1 H2 H3].
  - destruct (chain_In _ _ _ _ _ H1 Hin). lia.
  - rewrite app_comm_cons in Hin. apply in_app_or in Hin. destruct Hin as [Hin|Hin].
    + now destruct (chain_In _ _ _ _ _ H1 Hin).
    + destruct (chain_In _ _ _ _ _ H2 Hin). apply chain_le in H1. lia.
Qed.

(** A live block: header and bytes are where they should be. *)
Definition owns (m : memory) (p : pblk) : Prop :=
  let (a, x) := p in
  read_hdr m a = Some {| h_size := bsize x; h_used := N.of_nat (used x); h_ptr := a + 32 |} /\
  holds m (a + 32) (raw x) /\ (used x <= length (raw x))%nat.

Lemma owns_frame m m' a x : same_in m m' a (fl (bsize x)) -> owns m (a, x) -> owns m' (a, x).
Proof.
  intros H (H1 & H2 & H3). pose proof (fl_ge (bsize x)) as Hf. split; [|split; [|exact H3]].
  - etransitivity; [|exact H1]. apply read_hdr_frame. intros y Hy. apply H. lia.
  - apply holds_frame with m; [|exact H2]. intros y Hy. apply H. unfold bsize in *. lia.
Qed.

(** A write confined to [p, p+n) leaves blocks in [lo, hi] alone if disjoint. *)
Lemma owns_chain m m' p n l lo hi : same_out m m' p n -> chain lo l hi -> (hi <= p \/ p + n <= lo) ->
  Forall (owns m) l -> Forall (owns m') l.
Proof.
  intros Hs Hc Hd Ho. rewrite Forall_forall in *. intros [a x] Hin.
  destruct (chain_In _ _ _ _ _ Hc Hin) as [H1 H2].
  apply owns_frame with m; [|now apply Ho]. intros y Hy. apply Hs. lia.
Qed.

(* ---------------------------------------------------------------- state *)
Record ring (b : sbuf) (l : list pblk) (t : N) : Prop := {
  r_c : (2 <= sb_csz b)%nat;
  r_h : (sb_head b < sb_csz b)%nat;
  r_n : (length l < sb_csz b)%nat;
  r_t : sb_tail b = idx (sb_csz b) (sb_head b) (length l);
  r_circ : forall i a x, nth_error l i = Some (a, x) -> sb_circ b (idx (sb_csz b) (sb_head b) i) = Some a;
  r_tail : sb_circ b (sb_tail b) = Some t;
  r_lay : layout (sb_size b) t l;
  r_own : Forall (owns (sb_mem b)) l;
  r_emp : l = [] -> sb_head b = 0%nat
}.

Definition ring0 (b : sbuf) (l : list pblk) : Prop :=
  (exists t, ring b l t) \/
  (l = [] /\ sb_head b = 0%nat /\ sb_tail b = 0%nat /\ sb_circ b 0%nat = None /\ (2 <= sb_csz b)%nat).

Lemma ring_head b l t : ring b l t -> sb_circ b (sb_head b) = Some (head_at t l).
Proof.
  intros R. destruct l as [|[a x] l].
  - cbn. rewrite <- (r_tail _ _ _ R). f_equal. rewrite (r_t _ _ _ R). cbn [length]. rewrite idx_0; [reflexivity|apply R].
  - cbn. rewrite <- (r_circ _ _ _ R 0%nat a x eq_refl). now rewrite idx_0 by apply R.
Qed.

Lemma ring_last b l a x t : ring b (l ++ [(a, x)]) t -> tail_index b = idx (sb_csz b) (sb_head b) (length l) /\
  sb_circ b (tail_index b) = Some a.
Proof.
  intros R. assert (E : tail_index b = idx (sb_csz b) (sb_head b) (length l)).
  { unfold tail_index. rewrite (r_t _ _ _ R), app_length. cbn [length]. rewrite Nat.add_1_r.
    pose proof (r_n _ _ _ R) as Hn. rewrite app_length in Hn. cbn in Hn.
    apply idx_pred; [apply R|lia]. }
  split; [exact E|]. rewrite E. apply (r_circ _ _ _ R _ a x).
  rewrite nth_error_app2, Nat.sub_diag by lia. reflexivity.
Qed.

Lemma ring0_empty_iff b l : ring0 b l -> static_empty b = match_nil l.
Proof.
  intros [[t R]|(-> & H1 & H2 & _)].
  - unfold static_empty. rewrite (r_t _ _ _ R). destruct l as [|p l].
    + cbn [length]. rewrite idx_0 by apply R. apply Nat.eqb_refl.
    + cbn [match_nil]. apply Nat.eqb_neq. intros E.
      pose proof (r_n _ _ _ R). pose proof (r_c _ _ _ R).
      assert (0 = length (p :: l))%nat; [|discriminate].
      apply (idx_inj (sb_csz b) (sb_head b)); try apply R; try lia. now rewrite idx_0 by apply R.
  - unfold static_empty. now rewrite H1, H2.
Qed.

Lemma empty_init_ok b l : ring0 b l -> exists t, ring (empty_init b) l t /\ sb_size (empty_init b) = sb_size b /\ sb_csz (empty_init b) = sb_csz b.
Proof.
  intros [[t R]|(-> & H1 & H2 & H3 & H4)].
  - exists t. unfold empty_init. rewrite (ring_head _ _ _ R), (r_tail _ _ _ R). auto.
  - exists 0. unfold empty_init. rewrite H1, H2, H3. split; [|auto].
    constructor; cbn; try lia.
    + now rewrite idx_0 by lia.
    + intros i a x Hi. destruct i; discriminate.
    + reflexivity.
    + constructor; cbn; auto; lia.
    + constructor.
Qed.

(** Creating a block at [p] and filling it. *)
Lemma create_ok sz m p s bs : bs < 2 ^ 62 -> fl bs <= s -> p + fl bs <= sz ->
  exists m1, create sz m p s bs = Some (Some (p + fl bs, m1, true)) /\
    read_hdr m1 p = Some {| h_size := bs; h_used := 0; h_ptr := p + 32 |} /\ same_out m m1 p 24.
Proof.
  intros Hb Hs Hp. pose proof (fl_ge bs). unfold create. rewrite full_fl by exact Hb.
  destruct (N.ltb_spec s (fl bs)); [lia|]. rewrite head_size_32.
  destruct (write_hdr_ok sz m p {| h_size := bs; h_used := 0; h_ptr := p + 32 |}) as (m1 & E & H1 & H2); [lia|].
  rewrite E. exists m1. split; [|auto]. do 3 f_equal. destruct (N.leb_spec (p + 32 + bs) (p + fl bs)); [reflexivity|lia].
Qed.

Lemma fill_ok sz m m1 p d : p + fl (N.of_nat (length d)) <= sz ->
  read_hdr m1 p = Some {| h_size := N.of_nat (length d); h_used := 0; h_ptr := p + 32 |} -> same_out m m1 p 24 ->
  exists m2, write_data sz m1 (p + 32) d = Some m2 /\ owns m2 (p, {| raw := d; used := 0 |}) /\
             same_out m m2 p (fl (N.of_nat (length d))).
Proof.
  intros Hp Hr Hs. pose proof (fl_ge (N.of_nat (length d))).
  destruct (write_data_ok sz m1 (p + 32) d) as (m2 & E & H1 & H2); [lia|].
  exists m2. split; [exact E|]. split.
  - split; [|split; cbn; [exact H1|lia]].
    etransitivity; [|exact Hr]. apply read_hdr_frame. intros y Hy. apply H2. lia.
  - intros x Hx. rewrite H2 by lia. apply Hs. lia.
Qed.

(** Publishing a new last block at address [a] whose end is [t']. *)
Lemma publish_tail_ok b b1 l t a x t' k :
  ring b l t -> (length l + 1 < sb_csz b)%nat ->
  sb_head b1 = sb_head b -> sb_tail b1 = sb_tail b -> sb_csz b1 = sb_csz b -> sb_size b1 = sb_size b ->
  sb_circ b1 (sb_tail b) = Some a -> (forall i, i <> sb_tail b -> sb_circ b1 i = sb_circ b i) ->
  read_hdr (sb_mem b1) a = Some {| h_size := bsize x; h_used := 0; h_ptr := a + 32 |} ->
  exists b2, publish_tail b1 t' k = Some (mkres SUCCESS (Some (a + 32)) b2 k) /\
    sb_mem b2 = sb_mem b1 /\ sb_size b2 = sb_size b /\ sb_csz b2 = sb_csz b /\
    (forall m2, Forall (owns m2) (l ++ [(a, x)]) -> layout (sb_size b) t' (l ++ [(a, x)]) ->
       ring (set_mem b2 m2) (l ++ [(a, x)]) t').
Proof.
  intros R Hn Eh Et0 Ec Es Ea Eo Hr. unfold publish_tail.
  rewrite Et0, Ea, Hr. cbn [h_ptr h_used]. rewrite N.add_0_r, Ec.
  cbn [set_circ set_mem set_tail sb_circ sb_tail sb_mem sb_csz sb_head sb_size].
  eexists. split; [reflexivity|]. cbn [sb_mem sb_size sb_csz]. split; [reflexivity|]. split; [exact Es|]. split; [exact Ec|].
  intros m2 Ho Hl. pose proof (r_n _ _ _ R) as Hn'. pose proof (r_h _ _ _ R) as Hh. pose proof (r_c _ _ _ R) as Hc.
  assert (Et : ((sb_tail b + 1) mod sb_csz b)%nat = idx (sb_csz b) (sb_head b) (S (length l))).
  { rewrite (r_t _ _ _ R). apply idx_S; lia. }
  constructor; cbn [set_circ set_mem set_tail sb_circ sb_tail sb_mem sb_csz sb_head sb_size]; rewrite ?Ec, ?Eh, ?Es;
    try (rewrite app_length; cbn [length]); try lia; auto.
  - rewrite Et. f_equal. lia.
  - intros i c y Hi.
    assert (Hi' : (i < length (l ++ [(a, x)]))%nat) by (apply nth_error_Some; congruence).
    rewrite app_length in Hi'. cbn in Hi'. rewrite upd_other.
    + destruct (Nat.eqb_spec i (length l)) as [->|Hne].
      * rewrite nth_error_app2, Nat.sub_diag in Hi by lia. injection Hi as <- <-.
        rewrite <- (r_t _ _ _ R). exact Ea.
      * rewrite nth_error_app1 in Hi by lia.
        rewrite Eo; [now apply (r_circ _ _ _ R i c y)|].
        rewrite (r_t _ _ _ R). intros E. apply idx_inj in E; lia.
    + rewrite Et. intros E. apply idx_inj in E; lia.
  - rewrite upd_same. reflexivity.
  - intros E. destruct l; discriminate.
Qed.

Definition fresh (d : bytes) : blk := {| raw := d; used := 0 |}.

(** Outcome of a push/merge on the area: refused without effect, or the given new
    list once the caller has stored [d]. *)
Definition grew (b : sbuf) (l : list pblk) (P : list pblk -> Prop) (d : bytes) (o : option sres) : Prop :=
  exists r, o = Some r /\ sb_size (r_buf r) = sb_size b /\ sb_csz (r_buf r) = sb_csz b /\
    ((r_code r = BUFF_LIMIT /\ r_ptr r = None /\ ring0 (r_buf r) l) \/
     (r_code r = SUCCESS /\ exists p m' l' t', r_ptr r = Some p /\
        write_data (sb_size b) (sb_mem (r_buf r)) p d = Some m' /\ P l' /\ ring (set_mem (r_buf r) m') l' t')).

Lemma buffer_offset_le l r : l <= r -> buffer_offset l r = r - l.
Proof. intros H. unfold buffer_offset. destruct (N.ltb_spec l r); lia. Qed.
Lemma buffer_offset_ge l r : r <= l -> buffer_offset l r = l - r.
Proof. intros H. unfold buffer_offset. destruct (N.ltb_spec l r); lia. Qed.

Lemma Forall_snoc {A} (P : A -> Prop) l x : Forall P l -> P x -> Forall P (l ++ [x]).
Proof. intros. apply Forall_app. auto. Qed.

Lemma static_push_back_ok b l d : ring0 b l -> (length l + 1 < sb_csz b)%nat ->
  N.of_nat (length d) < 2 ^ 62 ->
  grew b l (fun l' => exists a, l' = l ++ [(a, fresh d)]) d (static_push_back b (N.of_nat (length d))) /\
  (forall r, static_push_back b (N.of_nat (length d)) = Some r -> r_ok r = true).
Proof.
  intros R0 Hn Hd. set (s := N.of_nat (length d)).
  destruct (empty_init_ok b l R0) as (t & R & Es & Ec).
  assert (Hc2 : (2 <= sb_csz b)%nat) by (rewrite <- Ec; apply R).
  assert (Hfull : Nat.eqb ((sb_tail b + 1) mod sb_csz b) (sb_head b) = false).
  { destruct R0 as [[t0 R0]|(-> & H1 & H2 & H3 & H4)].
    - apply Nat.eqb_neq. rewrite (r_t _ _ _ R0), idx_S by (try apply R0; lia). intros E.
      assert (S (length l) = 0)%nat; [|lia].
      apply (idx_inj (sb_csz b) (sb_head b)); try apply R0; try lia. rewrite E, idx_0; [reflexivity|apply R0].
    - rewrite H1, H2. rewrite Nat.mod_small by lia. reflexivity. }
  unfold static_push_back. rewrite Hfull. cbv zeta.
  assert (Hk0 : Nat.leb 2 (sb_csz b) = true) by now apply Nat.leb_le.
  rewrite Hk0. set (b' := empty_init b) in *. clearbody b'.
  rewrite full_fl by exact Hd. rewrite (ring_head _ _ _ R), (r_tail _ _ _ R).
  set (h := head_at t l) in *. pose proof (r_lay _ _ _ R) as Hlay. pose proof (fl_ge s) as Hfl.
  assert (Hrec : forall p t1 m1 k (Hw : t1 = p + fl s) b1,
     sb_head b1 = sb_head b' -> sb_tail b1 = sb_tail b' -> sb_csz b1 = sb_csz b' -> sb_size b1 = sb_size b' ->
     sb_circ b1 (sb_tail b') = Some p -> (forall i, i <> sb_tail b' -> sb_circ b1 i = sb_circ b' i) ->
     sb_mem b1 = m1 ->
     p + fl s <= sb_size b' ->
     read_hdr m1 p = Some {| h_size := s; h_used := 0; h_ptr := p + 32 |} ->
     same_out (sb_mem b') m1 p 24 ->
     (forall m2, same_out (sb_mem b') m2 p (fl s) -> Forall (owns m2) l) ->
     layout (sb_size b') t1 (l ++ [(p, fresh d)]) -> k = true ->
     grew b l (fun l' => exists a, l' = l ++ [(a, fresh d)]) d (publish_tail b1 t1 k) /\
     (forall r, publish_tail b1 t1 k = Some r -> r_ok r = true)).
  { intros p t1 m1 k Hw b1 A1 A2 A3 A4 A5 A6 A7 Hp Hr Hs Ho Hl Hk.
    destruct (publish_tail_ok b' b1 l t p (fresh d) t1 k R ltac:(rewrite Ec; exact Hn) A1 A2 A3 A4 A5 A6) as (b2 & E & B1 & B2 & B3 & B4).
    { rewrite A7. exact Hr. }
    rewrite E. split; [|intros r Er; injection Er as <-; exact Hk].
    exists (mkres SUCCESS (Some (p + 32)) b2 k). cbn [r_buf r_code r_ptr mkres].
    split; [reflexivity|]. split; [now rewrite B2|]. split; [now rewrite B3|]. right. split; [reflexivity|].
    destruct (fill_ok (sb_size b') (sb_mem b') m1 p d Hp Hr Hs) as (m2 & F1 & F2 & F3).
    exists (p + 32), m2, (l ++ [(p, fresh d)]), t1. split; [reflexivity|].
    split; [rewrite B1, A7, <- Es; exact F1|]. split; [eauto|].
    apply B4; [|exact Hl]. apply Forall_snoc; [now apply Ho|exact F2]. }
  destruct (N.leb_spec h t) as [L|L].
  - destruct (layout_lin _ _ _ Hlay L) as (Hch & Ht & Hemp).
    rewrite buffer_offset_le by lia.
    destruct (N.leb_spec (fl s) (sb_size b' - t)) as [L2|L2].
    + destruct (create_ok (sb_size b') (sb_mem b') t (sb_size b' - t) s Hd L2 ltac:(lia)) as (m1 & E & Hr & Hs).
      rewrite E. apply Hrec with (m1 := m1) (p := t); auto; try reflexivity.
      * apply R.
      * lia.
      * intros m2 Hm. apply owns_chain with (m := sb_mem b') (p := t) (n := fl s) (lo := h) (hi := t); auto; [lia|apply R].
      * constructor; [|lia|destruct l; discriminate].
        apply chain_app. exists t. split; [apply chain_lo with h; [exact Hch|lia]|].
        cbn [chain]. split; [lia|]. unfold bsize, fresh. cbn [raw]. fold s. lia.
      * destruct (N.leb_spec (t + fl s) (sb_size b')); [reflexivity|lia].
    + rewrite buffer_offset_le by lia. rewrite N.sub_0_r.
      destruct (N.leb_spec h (fl s)) as [L3|L3].
      * split; [|intros r Er; injection Er as <-; reflexivity].
        eexists. split; [reflexivity|]. cbn [r_buf r_code r_ptr mkres]. split; [exact Es|]. split; [exact Ec|]. left.
        repeat split; auto. left. eauto.
      * assert (Hh : h <= sb_size b') by lia.
        destruct (create_ok (sb_size b') (sb_mem b') 0 h s Hd ltac:(lia) ltac:(lia)) as (m1 & E & Hr & Hs).
        rewrite E. apply Hrec with (m1 := m1) (p := 0); auto; try reflexivity.
        -- cbn. apply upd_same.
        -- intros i Hi. cbn. now apply upd_other.
        -- lia.
        -- intros m2 Hm. apply owns_chain with (m := sb_mem b') (p := 0) (n := fl s) (lo := h) (hi := t); auto; [lia|apply R].
        -- destruct l as [|[a x] l0].
           ++ exfalso. specialize (Hemp eq_refl). cbn in h. unfold h in *. lia.
           ++ cbn [head_at] in h. subst h. cbn [app]. apply lay_wrap.
              ** now apply chain_hi with t.
              ** cbn [chain]. split; [lia|]. unfold bsize, fresh. cbn [raw]. fold s. lia.
              ** lia.
        -- destruct (N.leb_spec (0 + fl s) h); [reflexivity|lia].
  - destruct (layout_wrap _ _ _ Hlay L) as (a & x & hi & low & El & Hhi & Hlow & Hta).
    assert (Eh : h = a) by (unfold h; rewrite El; reflexivity).
    rewrite buffer_offset_le by lia.
    destruct (N.leb_spec (h - t) (fl s)) as [L3|L3].
    + split; [|intros r Er; injection Er as <-; reflexivity].
      eexists. split; [reflexivity|]. cbn [r_buf r_code r_ptr mkres]. split; [exact Es|]. split; [exact Ec|]. left.
      repeat split; auto. left. eauto.
    + pose proof (chain_le _ _ _ Hhi) as Hasz.
      destruct (create_ok (sb_size b') (sb_mem b') t (h - t) s Hd ltac:(lia) ltac:(lia)) as (m1 & E & Hr & Hs).
      rewrite E. apply Hrec with (m1 := m1) (p := t); auto; try reflexivity.
      * apply R.
      * lia.
      * intros m2 Hm. rewrite El, app_comm_cons. pose proof (r_own _ _ _ R) as Ho. rewrite El, app_comm_cons, Forall_app in Ho.
        apply Forall_app. split.
        -- apply owns_chain with (m := sb_mem b') (p := t) (n := fl s) (lo := a) (hi := sb_size b'); auto; [lia|apply Ho].
        -- apply owns_chain with (m := sb_mem b') (p := t) (n := fl s) (lo := 0) (hi := t); auto; [lia|apply Ho].
      * rewrite El, app_comm_cons, <- app_assoc, <- app_comm_cons. apply lay_wrap; [exact Hhi| |lia].
        apply chain_app. exists t. split; [exact Hlow|]. cbn [chain]. split; [lia|].
        unfold bsize, fresh. cbn [raw]. fold s. lia.
      * destruct (N.leb_spec (t + fl s) h); [reflexivity|lia].
Qed.
