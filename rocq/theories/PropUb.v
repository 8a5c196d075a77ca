(** C57: what undefined behaviour needs.  The log of the node model has an entry
    [TUb k] wherever the code would run into undefined behaviour (or an exception nobody
    catches): [UShift] an [int] shift by 31 or more, [UFreed] use of an endpoint that has
    been freed, [UIterator] use of an iterator whose entry was erased, [UThrow] an
    exception or overflow while an address is taken apart, [UNull] use of a null pointer. *)
From Verif Require Import Base Address Subnet SubnetProof NodeTypes NodeConn NodeCore NodeMsg Node NodeSpec NodeFrame
  NodeTrace NodeUb NodeExample PropNodeMsg.
From Coq Require Import Sorting.Permutation.
Local Open Scope N_scope.

(** ** The specification *)
(** Addresses that cannot be taken apart (C17 says which texts these are). *)
Definition odd_address (a : bytes) : Prop := parse_address a = Throws \/ parse_address a = Undefined.
(** Subnets that together span fewer than [2^31 - 2] ids. *)
Definition ids_of (nets : list sconf) : N := fold_right (fun c n => 2 ^ c_mask c + n) 0 nets.
Definition modest (nets : list sconf) : Prop := 2 + ids_of nets < 2 ^ 31.
(** The messages an event brings, and the addresses and subnets it brings or uses. *)
Definition msgs_of (l : list item) : list msg := flat_map (fun i => match i with RMsg _ m => [m] | _ => [] end) l.
Definition items_of (l : list io) : list item := flat_map (fun i => match i with IRecv _ i => [i] | _ => [] end) l.
Definition messages (ev : event) : list msg :=
  match ev with
  | EProc _ feed => flat_map (fun p => msgs_of (snd p)) feed
  | EPoll l => msgs_of (items_of l)
  | EIo i => msgs_of (items_of [i])
  | _ => []
  end.
Definition callbacks (ev : event) : list io := match ev with EPoll l => l | EIo i => [i] | _ => [] end.
Definition msg_addresses (m : msg) : list bytes :=
  match m_body m with BConn a => [a] | BReg false r => r_chans r | _ => [] end.
Definition msg_subnets (m : msg) : list (list sconf) :=
  match m_body m with BReg _ r => [r_nets r] | _ => [] end.
Definition brought (ev : event) : list bytes :=
  flat_map msg_addresses (messages ev) ++
  match ev with EListen a => [a] | EConnect a => [a] | EConnectEp a _ => [a] | _ => [] end.
Definition addresses (ev : event) (s : node) : list bytes :=
  brought ev ++ match ev with EStart _ => [x_parent (cf s)] | EProc _ _ => [x_parent (cf s)] | _ => [] end.
Definition subnets (ev : event) : list (list sconf) :=
  flat_map msg_subnets (messages ev) ++ match ev with EInit _ x => [x_nets x] | _ => [] end.
(** What must hold for undefined behaviour of kind [k]. *)
Definition blame (ev : event) (s : node) (k : ubk) : Prop :=
  match k with
  | UThrow => exists a, In a (addresses ev s) /\ odd_address a
  | UShift => exists nets, In nets (subnets ev) /\ ~ modest nets
  | UIterator => exists now feed c l, ev = EProc now feed /\ In (c, l) feed /\ l <> [] /\ exists a, In (a, c) (procs s)
  | UFreed => exists now feed, ev = EProc now feed /\ x_parent (cf s) <> []
  | UNull => In IAcceptFailed (callbacks ev)
  end.

(** ** Proofs *)
Lemma modest_mask nets c : modest nets -> In c nets -> c_mask c <= 30.
Proof.
  unfold modest. intros M I. destruct (N.le_gt_cases (c_mask c) 30) as [L|L]; [exact L|exfalso].
  assert (A : 2 ^ 31 <= 2 ^ c_mask c) by (apply N.pow_le_mono_r; lia).
  assert (B : 2 ^ c_mask c <= ids_of nets).
  { clear M. unfold ids_of. induction nets as [|d nets IH]; [destruct I|]. cbn [fold_right].
    destruct I as [->|I]; [lia|]. specialize (IH I). lia. }
  lia.
Qed.
Lemma small_ranges i nets : Forall (fun c => c_mask c <= 30) nets ->
  exists l b, conf_ranges i nets = Some (l, b) /\ Forall wf l /\ sizes l = ids_of nets.
Proof.
  induction 1 as [|c nets L F (l & b & E & W & Z)]; [exists [], true; now repeat split|]. cbn [conf_ranges]. rewrite E.
  unfold ids_of in *. cbn [fold_right].
  assert (X : forall a, exists x, mk_range a (c_mask c) = Some x /\ wf x /\ g_mask x = c_mask c).
  { intro a. destruct (mk_range_some a (c_mask c) L) as [x X]. exists x. destruct (mk_range_wf _ _ _ X) as (A & B & _). auto. }
  destruct (c_prefix c =? 0).
  - destruct (X i) as (x & -> & A & B). exists (x :: l), false. split; [reflexivity|]. split; [now constructor|].
    rewrite sizes_cons. rewrite B, Z. reflexivity.
  - destruct (X (c_prefix c)) as (x & -> & A & B). destruct (conf_contain_spec c i L) as (k & -> & _). exists (x :: l), (b && negb k).
    split; [reflexivity|]. split; [now constructor|]. rewrite sizes_cons. rewrite B, Z. reflexivity.
Qed.
Lemma sizes_app l l' : sizes (l ++ l') = sizes l + sizes l'.
Proof. unfold sizes. induction l as [|x l IH]; [reflexivity|]. cbn [app fold_right]. rewrite IH. lia. Qed.
Lemma small_endpoint i nets : Forall (fun c => c_mask c <= 30) nets -> 1 + ids_of nets < 2 ^ 31 -> endpoint_subnets i nets <> None.
Proof.
  intros F L. destruct (small_ranges i nets F) as (l & b & E & W & Z). unfold endpoint_subnets, endpoint_ranges. rewrite E.
  assert (X : forall l', Forall wf l' -> sizes l' < 2 ^ 31 -> merge_subnets l' <> None).
  { intros l' W' Z'. unfold merge_subnets. apply (merges_to_defined l'); trivial; [apply isort_perm|apply isort_sorted]. }
  destruct b; [|apply X; trivial; lia]. destruct (mk_range_some i 0 ltac:(lia)) as [x E0]. rewrite E0.
  destruct (mk_range_wf _ _ _ E0) as (A & B & _). apply X.
  - apply Forall_app. split; [exact W|constructor; [exact A|constructor]].
  - rewrite sizes_app, Z. unfold sizes. cbn [fold_right]. rewrite B. change (2 ^ 0) with 1. lia.
Qed.
Lemma exists_defined i nets : Forall (fun c => c_mask c <= 30) nets -> exists b, existsb_opt (fun c => conf_contain c i) nets = Some b.
Proof.
  induction 1 as [|c nets L F (b & E)]; [now exists false|]. destruct (conf_contain_spec c i L) as (k & K & _). cbn [existsb_opt]. rewrite K.
  destruct k; eauto.
Qed.
Lemma modest_masks nets : modest nets -> Forall (fun c => c_mask c <= 30) nets.
Proof. intro M. apply Forall_forall. intros c I. exact (modest_mask nets c M I). Qed.
Lemma modest_peer i nets : modest nets -> peer_subnets i nets <> None.
Proof.
  intro M. pose proof (modest_masks _ M) as F. unfold modest in M. unfold peer_subnets, reg_confs.
  destruct (exists_defined i nets F) as [b ->]. destruct b; [apply small_endpoint; trivial; lia|].
  apply small_endpoint.
  - apply Forall_app. split; [exact F|]. repeat constructor. cbn [c_mask]. lia.
  - unfold ids_of in *. rewrite fold_right_app. cbn [fold_right c_mask]. change (2 ^ 0) with 1.
    assert (X : forall n, fold_right (fun c n => 2 ^ c_mask c + n) n nets = fold_right (fun c n => 2 ^ c_mask c + n) 0 nets + n)
      by (clear; intro n; induction nets as [|d nets IH]; cbn [fold_right]; [lia|rewrite IH; lia]).
    rewrite X. lia.
Qed.
Lemma modest_endpoint i nets : modest nets -> endpoint_subnets i nets <> None.
Proof. intro M. apply small_endpoint; [now apply modest_masks|]. unfold modest in M. lia. Qed.
Lemma modest_contain i nets : modest nets -> confs_contain_id nets i <> None.
Proof.
  intro M. destruct (exists_defined i nets (modest_masks _ M)) as [b E]. unfold confs_contain_id. destruct nets; [discriminate|].
  destruct (i =? 0); [discriminate|]. rewrite E. discriminate.
Qed.

Section Blame.
Variables (ev : event) (s : node).
Notation P := (blame ev s).
Lemma fine_in a : In a (addresses ev s) -> fine_addr P a.
Proof. intros I O. exists a. split; assumption. Qed.
Lemma shift_in nets : In nets (subnets ev) -> (modest nets -> False) -> P UShift.
Proof. intros I O. exists nets. split; assumption. Qed.
Lemma fine_message m : In m (messages ev) -> fine_msg P m.
Proof.
  intro I. unfold fine_msg.
  assert (A : forall a, In a (msg_addresses m) -> fine_addr P a).
  { intros a X. apply fine_in. unfold addresses, brought. rewrite !in_app_iff. left. left. apply in_flat_map. eauto. }
  assert (B : forall n, In n (msg_subnets m) -> (modest n -> False) -> P UShift).
  { intros n X. apply shift_in. unfold subnets. apply in_app_iff. left. apply in_flat_map. eauto. }
  unfold msg_addresses, msg_subnets in *. destruct (m_body m) as [[] w|[] q|r|[] r|a|[] t|]; try exact Logic.I.
  - intros [i E]. apply (B (r_nets r)); [now left|]. intro M. exact (modest_contain i _ M E).
  - split; [now apply Forall_forall|]. intro E. apply (B (r_nets r)); [now left|]. intro M. exact (modest_peer _ _ M E).
  - apply A. now left.
Qed.
Lemma fine_items l : incl (msgs_of l) (messages ev) -> Forall (fine_item P) l.
Proof.
  intro I. apply Forall_forall. intros [z|n|n m] X; try exact Logic.I. apply fine_message, I. unfold msgs_of. apply in_flat_map.
  eexists. split; [exact X|now left].
Qed.
Lemma fine_ios l : incl (msgs_of (items_of l)) (messages ev) -> incl l (callbacks ev) -> Forall (fine_io P) l.
Proof.
  intros I C. apply fine_items in I. rewrite Forall_forall in *. intros [| | | | |c i|] X; try exact Logic.I; [|now apply C]. apply I. unfold items_of. apply in_flat_map.
  eexists. split; [exact X|now left].
Qed.
End Blame.

Lemma step_tame fuel ev s s' : step fuel ev s = Some s' ->
  adds (mild (blame ev s)) s s' /\ cf s' = match ev with EInit _ x => x | _ => cf s end /\
  (match ev with EListen a => socketed a | _ => True end -> incl (procs s') (procs s)).
Proof.
  intros E. set (W := fun s1 => adds (mild (blame ev s)) s s1 /\ cf s1 = match ev with EInit _ x => x | _ => cf s end /\
    (match ev with EListen a => socketed a | _ => True end -> incl (procs s1) (procs s))). change (W s').
  assert (T : forall s1, match ev with EInit _ _ => False | _ => True end -> tame (blame ev s) s s1 -> W s1)
    by (intros s1 NI (A & B & C); unfold W; destruct ev; try contradiction NI; auto).
  assert (AD : forall a, In a match ev with EListen a => [a] | EConnect a => [a] | EConnectEp a _ => [a] | EStart _ => [x_parent (cf s)]
    | EProc _ _ => [x_parent (cf s)] | _ => [] end -> fine_addr (blame ev s) a)
    by (intros a I; apply fine_in; unfold addresses, brought; rewrite !in_app_iff; destruct ev; auto).
  unfold step in E. destruct ev as [i x|now|a|a|a i|i|to ty b w q|to args q|z| |now feed|l|i|o l]; cbn [step_ret option_map] in E.
  all: try injection E as <-.
  - unfold W. destruct (ub_init (blame (EInit i x) s) i x s) as (A & B & C); [|now auto]. intro N. apply (shift_in (EInit i x) s (x_nets x)); [|intro M; exact (modest_endpoint i _ M N)].
    unfold subnets. apply in_app_iff. right. now left.
  - apply (T _ Logic.I), tm_start, AD. now left.
  - unfold W. destruct (ub_listen (blame (EListen a) s) a s) as (A & B & C); [apply AD; now left|]. auto.
  - apply (T _ Logic.I), tm_connect, AD. now left.
  - apply (T _ Logic.I). destruct (get_endpoint s i); [apply tm_connect_ep, AD; now left|apply tame_refl].
  - apply (T _ Logic.I), tm_node_dis.
  - apply (T _ Logic.I), tm_send_data.
  - apply (T _ Logic.I), tm_send_custom.
  - apply (T _ Logic.I), tm_shut.
  - apply (T _ Logic.I), tm_reset.
  - destruct (proc fuel now feed s) as [s1|] eqn:E1; [|discriminate]. injection E as <-. apply (T _ Logic.I), (tm_proc _ fuel now feed s).
    + apply Forall_forall. intros p I. apply fine_items. intros m M. cbn [messages]. apply in_flat_map. eauto.
    + intros [c l] I J NE. cbn [fst snd] in *. exists now, feed, c, l. split; [reflexivity|]. split; [exact I|]. split; [exact NE|].
      unfold in_procs in J. apply existsb_exists in J as ([a c'] & X & Y). cbn [snd] in Y. apply N.eqb_eq in Y. subst c'. now exists a.
    + intro NE. now exists now, feed.
    + apply AD. now left.
    + exact E1.
  - apply (T _ Logic.I), tm_poll, fine_ios; apply incl_refl.
  - apply (T _ Logic.I), tm_io. assert (F : Forall (fine_io (blame (EIo i) s)) [i]) by (apply fine_ios; apply incl_refl). now inversion F.
  - apply (T _ Logic.I). now apply tame_same.
Qed.

(** C57: undefined behaviour only follows an odd address, too many ids in one list of
    subnets, data on a polled channel, the work on a configured parent, or a peer that
    could not be accepted. *)
Theorem C57_undefined_causes : forall fuel ev s s' k, step fuel ev s = Some s' -> gained s s' (TUb k) -> blame ev s k.
Proof. intros fuel ev s s' k E G. destruct (step_tame _ _ _ _ E) as (A & _ & _). exact (adds_gained _ _ _ _ A G). Qed.
Print Assumptions C57_undefined_causes.

(** ** Histories without *)
(** [polled = false]: no memory channels are listened on; [polled = true]: nothing
    arrives on them. *)
Definition benign (polled : bool) (ev : event) : Prop :=
  Forall (fun a => ~ odd_address a) (brought ev) /\
  Forall modest (subnets ev) /\
  match ev with
  | EInit _ x => x_parent x = []
  | EListen a => polled = true \/ socketed a
  | EProc _ feed => polled = false \/ Forall (fun p => snd p = []) feed
  | _ => True
  end /\ ~ In IAcceptFailed (callbacks ev).

Definition sound (polled : bool) (s : node) : Prop :=
  (forall k, ~ In (TUb k) (log s)) /\ x_parent (cf s) = [] /\ (polled = false -> procs s = []).
Lemma sound_step polled fuel ev s s' : benign polled ev -> sound polled s -> step fuel ev s = Some s' -> sound polled s'.
Proof.
  intros (A & B & C & D) (U & X & Y) E.
  assert (NB : forall k, ~ blame ev s k).
  { rewrite Forall_forall in A, B. intros [] H; cbn [blame] in H.
    - destruct H as (n & I & H). exact (H (B n I)).
    - now destruct H as (? & ? & _ & H).
    - destruct H as (now & feed & c & l & -> & I & NE & a & J). cbn in C. destruct C as [C|C].
      + rewrite (Y C) in J. destruct J.
      + rewrite Forall_forall in C. exact (NE (C _ I)).
    - destruct H as (a & I & H). unfold addresses in I. apply in_app_iff in I as [I|I]; [exact (A a I H)|].
      assert (O : a = []) by (rewrite <- X; destruct ev; try contradiction I; destruct I as [<-|[]]; reflexivity). subst a.
      destruct H as [H|H]; discriminate H.
    - exact (D H). }
  assert (NC : forall k, ~ gained s s' (TUb k)) by (intros k G; exact (NB k (C57_undefined_causes _ _ _ _ _ E G))).
  destruct (step_tame _ _ _ _ E) as (S1 & S2 & S3). split; [|split].
  - intros k I. destruct S1 as (l & L & _). rewrite L in I. apply in_app_iff in I as [I|I]; [|exact (U k I)].
    apply (NC k). now exists l.
  - rewrite S2. destruct ev; trivial.
  - intro PF. destruct ev; try (apply incl_l_nil; rewrite <- (Y PF); apply S3; exact Logic.I).
    destruct C as [C|C]; [congruence|]. apply incl_l_nil. rewrite <- (Y PF). now apply S3.
Qed.
(** C57: with addresses that can be taken apart, modest subnets, no configured parent
    nothing arriving on polled channels and no failed accept there is no undefined behaviour of the
    five kinds, whatever else peers send and in whatever order it happens.
    Missing: what the theorems below exhibit. *)
Theorem C57_undefined_partial : forall polled fuel evs s, Forall (benign polled) evs -> run fuel evs new_node = Some s ->
  forall k, ~ In (TUb k) (log s).
Proof.
  intros polled fuel evs s F E. cut (sound polled s); [now intros []|].
  assert (S : sound polled new_node) by (split; [intros k []|]; split; reflexivity). revert F E S. generalize new_node.
  induction evs as [|ev evs IH]; intros s0 F E S; cbn [run] in E; [injection E as <-; exact S|].
  inversion_clear F as [|? ? B F']. destruct (step fuel ev s0) as [s1|] eqn:E1; [|discriminate].
  apply (IH s1 F' E). exact (sound_step _ _ _ _ _ B S E1).
Qed.
Print Assumptions C57_undefined_partial.

(** ** A history that is fine, and what is not covered *)
Definition reg_of id nets chans := {| r_id := id; r_pid := 9; r_host := [2]; r_chans := chans; r_keys := []; r_nets := nets |}.
Definition ub_of (s : node) : list ubk := flat_map (fun t => match t with TUb k => [k] | _ => [] end) (log s).
Lemma ub_in s k : In k (ub_of s) -> In (TUb k) (log s).
Proof. intro I. apply in_flat_map in I as (t & A & B). destruct t; try destruct B. now subst. destruct H. Qed.
(** Registrations, rubbish, data for strangers, commands, pongs nobody asked for and
    closed sockets. *)
Definition noise := boot 65540 [{| c_prefix := 65540; c_mask := 2 |}] ++
  [EIo (IRecv 2 (RBad 9)); EIo (IRecv 3 (RMsg 10 (msg0 7 (BData false (data0 7 8 [])))));
   EIo (IRecv 2 (RMsg 10 (msg0 65540 (BReg false (reg_of 65536 [] [adr_mem]))))); EIo (IRecv 2 (RMsg 10 (msg0 1 (BPing true 4))));
   EIo (IRecv 3 (RErr (-5))); EPoll [IClosed 2; IRecv 2 (RMsg 4 (msg0 0 BOther))]; EProc 140 [(1, []); (2, [RErr 3])]; EReset].
Example C57_case : Forall (benign false) noise /\ (exists s, run fuel0 noise new_node = Some s).
Proof.
  split.
  - unfold noise, boot. cbn [app].
    repeat (apply Forall_cons; [split; [|split; [|split]]|]); [..|apply Forall_nil].
    all: repeat (apply Forall_cons || apply Forall_nil).
    all: try exact Logic.I.
    all: try (intros [H|H]; vm_compute in H; discriminate H).
    all: try (vm_compute; reflexivity).
    all: try (cbn [callbacks In]; intuition discriminate).
    right. intros p H. vm_compute in H. injection H as <-. reflexivity.
  - destruct (run fuel0 noise new_node) as [s|] eqn:E; [now exists s|exfalso].
    assert (X : match run fuel0 noise new_node with Some _ => true | None => false end = true) by (vm_compute; reflexivity).
    rewrite E in X. discriminate.
Qed.
(** The system cannot accept a connection, for want of memory or descriptors. *)
Theorem C57_accept_refuted : exists evs s, run fuel0 evs new_node = Some s /\ In (TUb UNull) (log s).
Proof.
  exists [EInit 65536 cfg0; EStart 100; EListen adr; EIo IAcceptFailed].
  apply (witness_run _ ub_of _ [UNull]); [vm_compute; reflexivity|]. intros s E. apply ub_in. rewrite E. now left.
Qed.
(** A stranger registers with a subnet of 31 bits. *)
Theorem C57_subnets_refuted : exists evs s, run fuel0 evs new_node = Some s /\ In (TUb UShift) (log s).
Proof.
  exists [EInit 65536 cfg0; EStart 100; EListen adr; EIo (IAccepted adr2);
    EIo (IRecv 2 (RMsg 10 (msg0 65540 (BReg false (reg_of 65540 [{| c_prefix := 65540; c_mask := 31 |}] [])))))].
  apply (witness_run _ ub_of _ [UShift]); [vm_compute; reflexivity|]. intros s E. apply ub_in. rewrite E. now left.
Qed.
(** A stranger registers with the address "a:". *)
Theorem C57_address_refuted : exists evs s, run fuel0 evs new_node = Some s /\ In (TUb UThrow) (log s).
Proof.
  exists [EInit 65536 cfg0; EStart 100; EListen adr; EIo (IAccepted adr2);
    EIo (IRecv 2 (RMsg 10 (msg0 65540 (BReg false (reg_of 65540 [] [[97; 58]])))))].
  apply (witness_run _ ub_of _ [UThrow]); [vm_compute; reflexivity|]. intros s E. apply ub_in. rewrite E. now left.
Qed.
(** A writer of a memory channel the node listens on damages three messages. *)
Theorem C57_polled_refuted : exists evs s, run fuel0 evs new_node = Some s /\ In (TUb UIterator) (log s).
Proof.
  exists [EInit 65536 cfg0; EStart 100; EListen adr_mem; EProc 110 [(1, [RErr (-1)])]; EProc 111 [(1, [RErr (-1)])]; EProc 112 [(1, [RErr (-1)])]].
  apply (witness_run _ ub_of _ [UIterator]); [vm_compute; reflexivity|]. intros s E. apply ub_in. rewrite E. now left.
Qed.
Definition set_nets nets x :=
  {| x_nets := nets; x_parent := x_parent x; x_loop := x_loop x; x_ttl := x_ttl x; x_ping := x_ping x; x_retry := x_retry x;
     x_first := x_first x; x_tol := x_tol x; x_backlog := x_backlog x; x_msg := x_msg x; x_tokens := x_tokens x;
     x_pid := x_pid x; x_host := x_host x; x_mac := x_mac x; x_size := x_size x; x_cmd := x_cmd x; x_reply := x_reply x |}.
(** The parent answers no ping and the data connection to it is not there yet. *)
Theorem C57_parent_refuted : exists evs s, run fuel0 evs new_node = Some s /\ In (TUb UFreed) (log s).
Proof.
  exists [EInit 65540 (set_nets [] (set_pa adr cfg0)); EStart 100; EIo (IConnected 1 0);
    EIo (IRecv 1 (RMsg 10 (msg0 65536 (BReg false (reg_of 65536 [{| c_prefix := 65536; c_mask := 16 |}] [adr])))));
    EIo (IRecv 1 (RMsg 10 (msg0 65536 (BReg true (reg_of 65536 [{| c_prefix := 65536; c_mask := 16 |}] [adr])))));
    EProc 109 []; EProc 118 []].
  apply (witness_run _ ub_of _ [UFreed]); [vm_compute; reflexivity|]. intros s E. apply ub_in. rewrite E. now left.
Qed.
