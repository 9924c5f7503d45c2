(** Proofs of C103. *)
From Verif Require Import Base BaseFacts Codec CodecFacts Deps Types Did Keys Identity Spec DidFacts DecodeFacts VarintSpec VarintFacts Addr AddrSpec AddrFacts Peer PeerSpec.
Set Implicit Arguments.
Local Open Scope N_scope.

Lemma pair_inj {A C} (a b : A) (c d : C) : (a, c) = (b, d) -> a = b /\ c = d. Proof. split; congruence. Qed.
Lemma form_one b : Byte.to_N b < 128 -> varint_form [b].
Proof. intros H. exists [], b. split; [reflexivity|]. split; [constructor|]. split; [exact H|left; reflexivity]. Qed.
Lemma groups_one b : Byte.to_N b < 128 -> groups [b] = Byte.to_N b.
Proof. intros H. cbn [groups]. rewrite N.mod_small by exact H. lia. Qed.
Lemma groups_more b bs : 128 <= Byte.to_N b -> groups (b :: bs) = Byte.to_N b - 128 + 128 * groups bs.
Proof. intros H. cbn [groups]. pose proof (to_N_lt b). replace (Byte.to_N b mod 128) with (Byte.to_N b - 128); [reflexivity|]. apply (N.mod_unique _ _ 1); lia. Qed.
Lemma sevens_iff fuel : forall first bs n r, read_sevens fuel first bs = Some (n, r) <->
  exists v, bs = v ++ r /\ varint_form v /\ (length v <= fuel)%nat /\ groups v = n /\ (first = true \/ n <> 0).
Proof.
  induction fuel as [|f IH]; intros first bs n r.
  - cbn [read_sevens]. split; [discriminate|]. intros (v & _ & F & L & _). destruct v; [destruct F as ([|] & ? & ? & _); discriminate|cbn in L; lia].
  - destruct bs as [|b bs]; cbn [read_sevens].
    + split; [discriminate|]. intros (v & E & F & _). destruct v; [destruct F as ([|] & ? & ? & _); discriminate|discriminate].
    + destruct (N.ltb_spec (Byte.to_N b) 128) as [H|H].
      * split.
        -- destruct (negb first && (Byte.to_N b =? 0)) eqn:Z; [discriminate|]. intros E. apply some_inj in E. apply pair_inj in E as [<- <-].
           exists [b]. split; [reflexivity|]. split; [apply form_one; exact H|]. split; [cbn; lia|]. split; [apply groups_one; exact H|].
           destruct first; [left; reflexivity|right]. cbn in Z. lia.
        -- intros (v & E & F & L & G & Z). destruct v as [|b' v]; [destruct F as ([|] & ? & ? & _); discriminate|]. cbn [app] in E. apply cons_inj in E as [<- E].
           destruct (form_inv F) as [[_ ->]|(A & _)]; [|lia]. cbn [app] in E. subst bs. rewrite groups_one in G by exact H.
           replace (negb first && (Byte.to_N b =? 0)) with false; [rewrite G; reflexivity|]. destruct first; [reflexivity|]. destruct Z as [Z|Z]; [discriminate|]. cbn. lia.
      * split.
        -- destruct (read_sevens f false bs) as [[m r']|] eqn:E; [|discriminate]. intros E'. apply some_inj in E'. apply pair_inj in E' as [<- <-].
           apply IH in E as (v & -> & F & L & G & [Z|Z]); [discriminate|]. exists (b :: v). split; [reflexivity|]. split; [apply form_cons; congruence|].
           split; [cbn; lia|]. split; [rewrite groups_more by exact H; congruence|right]. lia.
        -- intros (v & E & F & L & G & Z). destruct v as [|b' v]; [destruct F as ([|] & ? & ? & _); discriminate|]. cbn [app] in E. apply cons_inj in E as [<- ->].
           destruct (form_inv F) as [[A _]|(_ & F' & G')]; [lia|]. rewrite groups_more in G by exact H.
           assert (R : read_sevens f false (v ++ r) = Some (groups v, r)).
           { apply IH. exists v. split; [reflexivity|]. split; [exact F'|]. split; [cbn in L; lia|]. split; [reflexivity|right; exact G']. }
           rewrite R, G. reflexivity.
Qed.
Lemma u64_iff lossy bs n r : read_u64 lossy bs = Some (n, r) <-> exists v, bs = v ++ r /\ u64_bytes lossy n v.
Proof.
  unfold read_u64. split.
  - destruct (read_sevens 10 true bs) as [[m r']|] eqn:E; [|discriminate]. apply sevens_iff in E as (v & -> & F & L & G & _).
    destruct (N.ltb_spec m (2 ^ 64)) as [H|H]; [|destruct lossy; [|discriminate]]; intros E; apply some_inj in E; apply pair_inj in E as [<- <-];
      exists v; (split; [reflexivity|]); (split; [exact F|]); (split; [exact L|]).
    + split; [exact H|left; exact G].
    + split; [apply N.mod_lt; discriminate|right]. split; [reflexivity|]. rewrite G. reflexivity.
  - intros (v & -> & F & L & H & G). assert (R : read_sevens 10 true (v ++ r) = Some (groups v, r)).
    { apply sevens_iff. exists v. split; [reflexivity|]. split; [exact F|]. split; [exact L|]. split; [reflexivity|left; reflexivity]. }
    rewrite R. destruct G as [G|[-> G]].
    + rewrite G. destruct (N.ltb_spec n (2 ^ 64)); [reflexivity|lia].
    + destruct (N.ltb_spec (groups v) (2 ^ 64)) as [S'|S']; [|rewrite G; reflexivity]. rewrite N.mod_small in G by exact S'. rewrite G. reflexivity.
Qed.
Lemma multihash_iff lossy bs c d : read_multihash lossy bs = Some (c, d) <->
  (length d <= 64)%nat /\ exists v w, u64_bytes lossy c v /\ u64_bytes lossy (N.of_nat (length d)) w /\ bs = v ++ w ++ d.
Proof.
  unfold read_multihash. split.
  - destruct (read_u64 lossy bs) as [[c' r]|] eqn:E; [|discriminate]. destruct (read_u64 lossy r) as [[s' d']|] eqn:E'; [|discriminate].
    destruct ((s' <=? 64) && (N.of_nat (length d') =? s')) eqn:C; [|discriminate]. intros X. apply some_inj in X. apply pair_inj in X as [<- <-].
    apply andb_true_iff in C as [C1 C2]. apply N.eqb_eq in C2. apply N.leb_le in C1. rewrite C2.
    apply u64_iff in E as (v & -> & U). apply u64_iff in E' as (w & -> & W). split; [lia|]. exists v, w. auto.
  - intros (L & v & w & U & W & ->). rewrite (proj2 (u64_iff lossy (v ++ w ++ d) c (w ++ d))) by eauto.
    rewrite (proj2 (u64_iff lossy (w ++ d) (N.of_nat (length d)) d)) by eauto. rewrite N.eqb_refl.
    destruct (N.leb_spec (N.of_nat (length d)) 64); [reflexivity|lia].
Qed.
Theorem peer_iff lossy t v : read_peer lossy t = Some v <-> exists c d, peer_text lossy c d t /\ v = Raw (multihash_bytes (c, d)).
Proof.
  unfold read_peer, peer_text, peer. split.
  - destruct (base58_decode t) as [bs|] eqn:E; [|discriminate]. apply base58_encode_decode in E.
    destruct (read_multihash lossy bs) as [[c d]|] eqn:M; [|discriminate]. destruct (peer_code (c, d)) eqn:P; [|discriminate].
    intros X. apply some_inj in X. apply multihash_iff in M as (L & v' & w & U & W & ->). unfold peer_code in P. cbn [fst snd] in P.
    exists c, d. split; [|symmetry; exact X]. split; [lia|]. exists v', w. auto.
  - intros (c & d & (P & v' & w & U & W & ->) & ->). rewrite base58_decode_encode.
    rewrite (proj2 (multihash_iff lossy (v' ++ w ++ d) c d)) by (split; [lia|eauto]).
    replace (peer_code (c, d)) with true; [reflexivity|]. unfold peer_code. cbn [fst snd]. lia.
Qed.

(** ** In addresses *)
Lemma p2p_unknown : ~ In (B "p2p") known. Proof. cbv. intuition discriminate. Qed.
Lemma peer_lacks lossy c d t x : peer_text lossy c d t -> is_char58 x = false -> ~ In x t.
Proof.
  intros (_ & v & w & _ & _ & ->) H I. pose proof (proj1 (Forall_forall _ _) (base58_alphabet (v ++ w ++ d)) x I) as C. cbn beta in C. congruence.
Qed.
Theorem peer_part lossy other v u : protocol_text (with_p2p lossy other) (B "p2p", Some v) u <->
  exists c d t, peer_text lossy c d t /\ v = Raw (multihash_bytes (c, d)) /\ u = B "/p2p/" ++ t.
Proof.
  split.
  - intros H. inversion H as [| |k n t K X|k t K X| | |k f t v' K S E S' V]; subst.
    + exfalso. apply p2p_unknown. unfold known. rewrite !in_app_iff. tauto.
    + exfalso. apply p2p_unknown. unfold known. rewrite !in_app_iff. tauto.
    + change (with_p2p lossy other (B "p2p")) with (With (read_peer lossy)) in E. injection E as <-. apply peer_iff in V as (c & d & P & ->). exists c, d, t. auto.
  - intros (c & d & t & P & -> & ->). change (B "/p2p/" ++ t) with (B "/" ++ B "p2p" ++ B "/" ++ t). apply P_with with (read_peer lossy).
    + exact p2p_unknown.
    + cbv. intuition discriminate.
    + reflexivity.
    + eapply peer_lacks; [exact P|reflexivity].
    + apply peer_iff. exists c, d. auto.
Qed.
Theorem peer_through_uri lossy other D view (d : did D) i ps t h uri : multiaddr18 (with_p2p lossy other) D view -> did_identity d = Ok i ->
  address_text (with_p2p lossy other) ps t -> (forall k v, In (k, v) ps -> In k (B "p2p" :: known)) -> (forall k x, In (k, Some (Txt x)) ps -> clean (Some x)) -> clean h ->
  build_uri d (Some {| address := Some t; hl := h |}) = Ok uri ->
  exists a, parse_uri uri = Ret (Ok (id_value i, {| address := Some t; hl := h |})) /\
    parse_multiaddr D {| address := Some t; hl := h |} = Ok (Some a) /\ view a = ps.
Proof.
  intros M I T K C Ch Bd. destruct (proj2 (multiaddr_read M t) ps T) as (a & Ea & Va). exists a. split; [|split; [|exact Va]].
  - apply (uri_round_trip I Bd). split; [|exact Ch]. destruct T as (us & U & ->). clear Ea Va Bd.
    induction U as [|p u ps us P U IH]; [cbn; tauto|]. cbn [concat]. apply bland_app.
    + destruct p as [k v]. destruct (K k v (or_introl eq_refl)) as [<-|K'].
      * destruct v as [v|].
        -- apply peer_part in P as (c & e & x & P & _ & ->). apply bland_app; [cbv; intuition discriminate|].
           repeat split; (eapply peer_lacks; [exact P|reflexivity]).
        -- inversion P as [| | | |k' F|k' N1 N2 E|]; subst; [exfalso; apply p2p_unknown; unfold known; rewrite !in_app_iff; tauto|].
           change (with_p2p lossy other (B "p2p")) with (With (read_peer lossy)) in E. discriminate.
      * eapply protocol_bland; [eassumption|exact K'|]. cbn [snd]. intros x ->. apply (C k x). left. reflexivity.
    + apply IH; [intros k v X; apply (K k v); right; exact X|intros k x X; apply (C k x); right; exact X].
  - unfold parse_multiaddr. cbn [address]. rewrite Ea. reflexivity.
Qed.

(** ** How many texts *)
Lemma u64_strict n v : u64_bytes false n v -> v = varint n.
Proof. intros (F & _ & _ & [G|[X _]]); [exact (varint_unique F G)|discriminate]. Qed.
Theorem peer_one_text c d t t' : peer_text false c d t -> peer_text false c d t' -> t = t'.
Proof.
  intros (_ & v & w & U & W & ->) (_ & v' & w' & U' & W' & ->). apply u64_strict in U, W, U', W'. congruence.
Qed.
Lemma u64_small lossy n : n < 128 -> u64_bytes lossy n (varint n).
Proof.
  intros H. destruct (varint_spec n) as [F G]. split; [exact F|]. split; [|split; [lia|left; exact G]].
  unfold varint. cbn [varint_fuel]. destruct (N.ltb_spec n 128); [cbn; lia|lia].
Qed.
Theorem peer_some lossy c d : peer c d -> exists t, peer_text lossy c d t.
Proof.
  intros P. assert (c < 128 /\ N.of_nat (length d) < 128) as [L1 L2] by (unfold peer in P; lia).
  exists (base58_encode (varint c ++ varint (N.of_nat (length d)) ++ d)). split; [exact P|].
  eexists _, _. split; [apply u64_small; exact L1|]. split; [apply u64_small; exact L2|reflexivity].
Qed.
(** Ten bytes for a number below 128 and 2^64 more. *)
Definition long (n : N) : bytes := byte_of_N (n + 128) :: repeat x80 8 ++ [x02].
Lemma long_u64 n : n < 128 -> u64_bytes true n (long n).
Proof.
  intros H. assert (E : groups (long n) = n + 2 ^ 64).
  { unfold long. rewrite groups_more; rewrite to_N_byte_of_N by lia; [|lia]. replace (groups (repeat x80 8 ++ [x02])) with (2 ^ 57) by (vm_compute; reflexivity). lia. }
  split; [|split; [cbn; lia|split; [lia|right; split; [reflexivity|]]]].
  - unfold long. exists (byte_of_N (n + 128) :: repeat x80 8), x02. split; [reflexivity|]. split.
    + constructor; [rewrite to_N_byte_of_N by lia; lia|]. apply Forall_forall. intros b I. apply repeat_spec in I as ->. discriminate.
    + split; [reflexivity|right; discriminate].
  - rewrite E. symmetry. apply (N.mod_unique _ _ 1); lia.
Qed.
Theorem peer_more_texts c d t : peer_text true c d t -> exists t', t' <> t /\ peer_text true c d t'.
Proof.
  intros (P & v & w & U & W & ->). assert (L : c < 128) by (unfold peer in P; lia).
  assert (X : exists v', v' <> v /\ u64_bytes true c v').
  { destruct (list_eq_dec Byte.byte_eq_dec (long c) v) as [<-|Ne]; [|exists (long c); split; [exact Ne|apply long_u64; exact L]].
    exists (varint c). split; [|apply u64_small; exact L]. intros E. apply (f_equal groups) in E.
    rewrite (proj2 (varint_spec c)) in E. unfold long in E. rewrite groups_more in E; rewrite to_N_byte_of_N in * by lia; [|lia].
    replace (groups (repeat x80 8 ++ [x02])) with (2 ^ 57) in E by (vm_compute; reflexivity). lia. }
  destruct X as (v' & Ne & U'). exists (base58_encode (v' ++ w ++ d)). split; [|split; [exact P|exists v', w; auto]].
  intros E. apply base58_encode_inj in E. apply Ne. exact (proj1 (@varint_prefix v' v (w ++ d) (w ++ d) (proj1 U') (proj1 U) E)).
Qed.
Theorem peer_any_digest lossy other d : (length d <= 64)%nat -> exists t, read_addr (with_p2p lossy other) (B "/p2p/" ++ t) =
  Some [(B "p2p", Some (Raw (multihash_bytes (18, d))))].
Proof.
  intros L. destruct (@peer_some lossy 18 d) as (t & T); [left; auto|]. exists t. apply read_addr_iff. exists [B "/p2p/" ++ t].
  split; [|cbn [concat]; rewrite app_nil_r; reflexivity]. constructor; [|constructor]. apply peer_part. exists 18, d, t. auto.
Qed.
Theorem peer_others lossy other k v u : k <> B "p2p" -> protocol_text (with_p2p lossy other) (k, v) u <-> protocol_text other (k, v) u.
Proof.
  intros Ne. assert (R : with_p2p lossy other k = other k).
  { unfold with_p2p. destruct (bytes_eqb k (B "p2p")) eqn:E; [|reflexivity]. apply bytes_eqb_eq in E. contradiction. }
  split; intros H; inversion H; subst; try (constructor; assumption); try (apply P_alone; congruence); eapply P_with; try eassumption; congruence.
Qed.
