(** C16-C18: channel addresses. *)
From Verif Require Import Base AddressSpec Address AddressProof.
Local Open Scope N_scope.

(** C16: building an address and parsing its text gives back the same scheme, host
    and port, for a scheme without ':' and '/', and either a port or a host without
    ':'. *)
Theorem C16_address_round_trip : forall scheme host port,
  (0 <= port < 2147483648)%Z ->
  Forall (fun c => c <> colon /\ c <> slash) scheme ->
  (port = 0%Z -> Forall (fun c => c <> colon) host) ->
  parse_address (a_address (build_address scheme host port)) =
    Parsed {| a_address := a_address (build_address scheme host port); a_scheme := scheme; a_host := host; a_port := port |}.
Proof.
  intros scheme host port Hp Hs Hh. destruct (Z.eq_dec port 0) as [->|Hn].
  - exact (parse_without_port scheme host Hs (Hh eq_refl)).
  - exact (parse_with_port scheme host port Hs ltac:(lia)).
Qed.
Print Assumptions C16_address_round_trip.

(** C16: the text built is scheme://host, followed by ':' and the usual decimal
    text of a positive port. *)
Theorem C16_address_text : forall scheme host port, (port < 2147483648)%Z ->
  exists tail, a_address (build_address scheme host port) = scheme ++ sep3 ++ host ++ tail /\
    ((port <= 0)%Z -> tail = []) /\
    ((0 < port)%Z -> exists ds, tail = colon :: ds /\ decimal_text (Z.to_N port) ds).
Proof.
  intros scheme host port Hp. eexists. split; [reflexivity|]. destruct (Z.ltb_spec 0 port) as [H|H].
  - split; [lia|]. intros _. exists (print_int port). split; [reflexivity|]. apply print_int_spec. lia.
  - split; [reflexivity|lia].
Qed.
Print Assumptions C16_address_text.

(** C16: whatever text is accepted, its parts are substrings in order: scheme (without
    ':' and '/'), three characters of which the first is ':' or '/', host, and
    nothing or ':' with the text the port was read from. *)
Theorem C16_parse_invents_nothing : forall s a, parse_address s = Parsed a ->
  a_address a = s /\ Forall (fun c => c <> colon /\ c <> slash) (a_scheme a) /\
  exists sep tail, length sep = 3%nat /\ s = a_scheme a ++ sep ++ a_host a ++ tail /\
    (hd 0 sep = colon \/ hd 0 sep = slash) /\
    (tail = [] /\ a_port a = 0%Z \/
     exists text, tail = colon :: text /\ Forall (fun c => c <> colon) text /\
       (scan_int text = Some (Some (a_port a)) \/ (scan_int text = Some None /\ a_port a = 0%Z))).
Proof. exact parse_structure. Qed.
Print Assumptions C16_parse_invents_nothing.

(** Where the text after ':' is a decimal number the port is that number. *)
Theorem C16_port_value : forall n ds, n < 2147483648 -> decimal_text n ds -> scan_int ds = Some (Some (Z.of_N n)).
Proof. intros n ds Hn Hd. exact (scan_decimal n ds Hd Hn). Qed.
Print Assumptions C16_port_value.

Definition str_ipv6 : list N := [105; 112; 118; 54].                 (* ipv6 *)
Definition str_lo6 : list N := [58; 58; 49].                          (* ::1 *)
Example C16_case : parse_address (a_address (build_address str_ipv6 str_lo6 8123)) = Parsed (build_address str_ipv6 str_lo6 8123) /\
  a_address (build_address str_ipv6 str_lo6 8123) = str_ipv6 ++ [58; 47; 47] ++ str_lo6 ++ [58; 56; 49; 50; 51].
Proof. vm_compute. auto. Qed.

(** Without a port a host with ':' does not come back. *)
Theorem C16_colon_host_refuted : exists scheme host a, 
  parse_address (a_address (build_address scheme host 0)) = Parsed a /\ a_host a <> host.
Proof. exists str_ipv6, str_lo6. eexists. split; [vm_compute; reflexivity|]. cbn. discriminate. Qed.

(** The separator is not checked: "a:xyz" is accepted as scheme "a", host "z". *)
Theorem C16_separator_refuted : exists s a, parse_address s = Parsed a /\
  s <> a_address (build_address (a_scheme a) (a_host a) (a_port a)).
Proof. exists [97; 58; 120; 121; 122]. eexists. split; [vm_compute; reflexivity|]. vm_compute. discriminate. Qed.

(** C17 is false: "a:" makes the parser throw.  Exactly the texts that end within
    two characters of their first ':' or '/' do. *)
Theorem C17_parse_throws_refuted : exists s, parse_address s = Throws.
Proof. exists [97; 58]. vm_compute. reflexivity. Qed.
Theorem C17_parse_throws_exactly : forall s, parse_address s = Throws <->
  exists scheme rest, s = scheme ++ rest /\ Forall (fun c => c <> colon /\ c <> slash) scheme /\
    (1 <= length rest <= 2)%nat /\ (hd 0 rest = colon \/ hd 0 rest = slash).
Proof. exact parse_throws. Qed.
Print Assumptions C17_parse_throws_exactly.

(** C17, as far as it holds: a text whose first separator is followed by at least two
    characters and whose port, if any, fits an int is accepted; a text without
    separator is rejected.  Missing: the throwing texts above and port overflow. *)
Theorem C17_parse_total_partial : forall s,
  (Forall (fun c => c <> colon /\ c <> slash) s -> parse_address s = Rejected) /\
  (forall scheme c r, s = scheme ++ c :: r -> Forall (fun c => c <> colon /\ c <> slash) scheme ->
     c = colon \/ c = slash -> (2 <= length r)%nat ->
     (forall pre text, s = pre ++ colon :: text -> Forall (fun c => c <> colon) text -> scan_int text <> None) -> exists a, parse_address s = Parsed a).
Proof.
  intros s. split.
  - intros H. unfold parse_address. apply find_first_none in H. now rewrite H.
  - intros scheme c r -> Hs Hc Hr Ht. unfold parse_address. rewrite (find_first_app scheme c r Hs Hc). cbv zeta.
    set (s := scheme ++ c :: r) in *.
    assert (L : (length s <? length scheme + 3)%nat = false) by (apply Nat.ltb_ge; unfold s; rewrite app_length; cbn; lia).
    rewrite L. destruct (find_last s) as [k|] eqn:F.
    + destruct (length scheme + 3 <=? k)%nat; [|eauto].
      destruct (find_last_split s k F) as (pre & E). specialize (Ht pre (skipn (k + 1) s) E (find_last_rest s k F)). destruct (scan_int (skipn (k + 1) s)) as [[z|]|]; [eauto|eauto|contradiction].
    + eauto.
Qed.
Print Assumptions C17_parse_total_partial.
Example C17_case : exists a, parse_address [117;110;105;120;58;47;47;47;116;109;112] = Parsed a.
Proof. eexists. vm_compute. reflexivity. Qed.

(** C18: the predicates ignore case. *)
Theorem C18_nocase : forall s t, same_nocase s t ->
  is_simplex (Some s) = is_simplex (Some t) /\ is_duplex (Some s) = is_duplex (Some t) /\
  is_local_process (Some s) = is_local_process (Some t) /\ is_local_host (Some s) = is_local_host (Some t).
Proof.
  intros s t H. assert (P : forall p, prefix_nocase p s = prefix_nocase p t).
  { intros p. rewrite (prefix_map_lower p s), (prefix_map_lower p t). now rewrite H. }
  unfold same_nocase in H. unfold is_simplex, is_duplex, is_local_process, is_local_host, is_simplex, is_local_process.
  destruct s, t; try discriminate; cbn [non_empty]; rewrite ?P; auto.
Qed.
Print Assumptions C18_nocase.

(** C18: for an address "scheme:..." the predicates are decided by the scheme. *)
Theorem C18_by_scheme : forall scheme rest, Forall (fun c => c <> colon /\ c <> slash) scheme ->
  let s := Some (scheme ++ colon :: rest) in
  (is_local_process s = true <-> same_nocase scheme s_mem) /\
  (is_simplex s = true <-> (same_nocase scheme s_mem \/ same_nocase scheme s_shm)) /\
  (is_duplex s = true <-> ~ (same_nocase scheme s_mem \/ same_nocase scheme s_shm)) /\
  (is_local_host s = true <-> (same_nocase scheme s_mem \/ same_nocase scheme s_shm \/ same_nocase scheme s_unix)).
Proof.
  intros scheme rest Hs. cbv zeta.
  assert (Ne : non_empty (Some (scheme ++ colon :: rest)) = Some (scheme ++ colon :: rest)) by (destruct scheme; reflexivity).
  pose proof (prefix_scheme s_mem scheme rest Hs ltac:(repeat constructor; discriminate)) as Pm.
  pose proof (prefix_scheme s_shm scheme rest Hs ltac:(repeat constructor; discriminate)) as Ps.
  pose proof (prefix_scheme s_unix scheme rest Hs ltac:(repeat constructor; discriminate)) as Pu.
  change (s_mem ++ [58]) with p_mem in Pm. change (s_shm ++ [58]) with p_shm in Ps. change (s_unix ++ [58]) with p_unix in Pu.
  unfold is_duplex, is_local_host, is_simplex, is_local_process. rewrite !Ne.
  rewrite <- Pm, <- Ps, <- Pu.
  destruct (prefix_nocase p_mem _), (prefix_nocase p_shm _), (prefix_nocase p_unix _); cbn [negb];
    repeat split; intros; try discriminate; try tauto; intuition discriminate.
Qed.
Print Assumptions C18_by_scheme.

(** C18: never both simplex and duplex; one of them for every non-empty text;
    process-local implies host-local and simplex. *)
Theorem C18_relations : forall s,
  ~ (is_simplex s = true /\ is_duplex s = true) /\
  (forall c r, s = Some (c :: r) -> is_simplex s = true \/ is_duplex s = true) /\
  (is_local_process s = true -> is_local_host s = true /\ is_simplex s = true) /\
  (s = None \/ s = Some [] -> is_simplex s = false /\ is_duplex s = false /\ is_local_host s = false /\ is_local_process s = false).
Proof.
  intros s. unfold is_duplex, is_local_host, is_simplex, is_local_process. repeat split.
  - destruct (non_empty s); [|intros [H _]; discriminate]. intros [H1 H2]. rewrite H1 in H2. discriminate.
  - intros c r ->. cbn [non_empty]. destruct (if prefix_nocase p_mem (c :: r) then true else _); auto.
  - destruct (non_empty s) as [t|]; [|discriminate]. now rewrite H.
  - destruct (non_empty s) as [t|]; [|discriminate]. now rewrite H.
  - destruct H as [-> | ->]; reflexivity.
  - destruct H as [-> | ->]; reflexivity.
  - destruct H as [-> | ->]; reflexivity.
  - destruct H as [-> | ->]; reflexivity.
Qed.
Print Assumptions C18_relations.
Example C18_case : is_simplex (Some [77;69;109;58;47;47]) = true /\ is_local_host (Some [85;110;105;120;58;47;47]) = true /\
  is_duplex (Some [105;112;118;52;58;47;47]) = true.
Proof. vm_compute. auto. Qed.
