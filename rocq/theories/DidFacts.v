(** Facts about DID URIs and identity values (C01-C08). *)
From Verif Require Import Base BaseFacts Codec CodecFacts Json JsonParse Deps Types Did Keys Doc Identity Spec.
Set Implicit Arguments.
Unset Strict Implicit.

Lemma some_inj {A} (x y : A) : Some x = Some y -> x = y.
Proof. congruence. Qed.
Lemma ok_inj {A E} (x y : A) : @Ok A E x = Ok y -> x = y.
Proof. congruence. Qed.
Lemma before_no c s a : ~ In c s -> before c s a -> s = a.
Proof.
  intros H [_ [E | [r E]]]; auto. subst. exfalso. apply H, in_or_app; right; left; reflexivity.
Qed.
Lemma before_fun c s a b : before c s a -> before c s b -> a = b.
Proof.
  intros [Na Ha] [Nb Hb].
  assert (X : forall a b ra rb, ~ In c a -> ~ In c b -> a ++ c :: ra = b ++ c :: rb -> a = b).
  { clear. induction a as [|x a IH]; intros [|y b] ra rb Na Nb E; cbn in E.
    + auto.
    + injection E as E1 E2. exfalso; apply Nb; left; auto.
    + injection E as E1 E2. exfalso; apply Na; left; auto.
    + injection E as -> E2. f_equal. apply (IH b ra rb); auto; intro; [apply Na | apply Nb]; right; auto. }
  assert (Y : forall r, In c (b ++ c :: r)) by (intros; apply in_or_app; right; left; reflexivity).
  assert (Z : forall r, In c (a ++ c :: r)) by (intros; apply in_or_app; right; left; reflexivity).
  destruct Ha as [Ea | [ra Ea]], Hb as [Eb | [rb Eb]]; rewrite Ea in Eb; auto.
  - exfalso. apply Na. rewrite Eb. auto.
  - exfalso. apply Nb. rewrite <- Eb. auto.
  - apply (X a b ra rb); auto.
Qed.
Lemma first_cut c (a b ra rb : bytes) : ~ In c a -> ~ In c b -> a ++ c :: ra = b ++ c :: rb -> a = b /\ ra = rb.
Proof.
  intros Na Nb E. assert (a = b) as -> .
  { apply (@before_fun c (a ++ c :: ra)); split; auto; right; eauto. }
  apply app_inv_head in E. injection E; auto.
Qed.
Lemma query_of_fun u q1 q2 : query_of u q1 -> query_of u q2 -> q1 = q2.
Proof.
  intros (a & r & E & N & Bq) (a' & r' & E' & N' & Bq'). subst u.
  destruct (first_cut N N' E') as [-> ->]. apply (before_fun Bq Bq').
Qed.
Lemma items_split q items : items_of q items <-> items = split "&"%byte q.
Proof.
  split.
  - intros (H & -> & F). symmetry. apply split_join_inv; auto.
    rewrite Forall_forall in F. intros p Hp. apply mem_not_In, F, Hp.
  - intros ->. split; [apply split_not_nil|]. split; [symmetry; apply split_join|].
    apply Forall_forall. intros p Hp. apply mem_not_In, (@split_pieces _ _ _ Hp).
Qed.
Lemma binds_fun item name v w : ~ In "="%byte name -> binds item name v -> binds item name w -> v = w.
Proof.
  intros N (r & E & Bv) (r' & E' & Bw). subst.
  destruct (first_cut N N E') as [_ ->]. apply (before_fun Bv Bw).
Qed.

Lemma param_of_fun u name o1 o2 : ~ In "="%byte name -> param_of u name o1 -> param_of u name o2 -> o1 = o2.
Proof.
  intros N. destruct o1 as [v|], o2 as [w|]; cbn; auto.
  - intros (q & pre & it & post & Q & I & Bv & L) (q' & pre' & it' & post' & Q' & I' & Bw & L').
    pose proof (query_of_fun Q Q'); subst q'.
    apply items_split in I, I'. rewrite <- I' in I. clear I' Q Q'. f_equal.
    revert pre' I. induction pre as [|x pre IH]; intros [|y pre'] E; cbn in E; injection E as E1 E2.
    + subst. apply (binds_fun N Bv Bw).
    + subst. exfalso. apply (L it' w); auto. apply in_or_app; right; left; auto.
    + subst. exfalso. apply (L' it v); auto. apply in_or_app; right; left; auto.
    + apply (IH pre'); auto.
  - intros (q & pre & it & post & Q & I & Bv & L) H. exfalso.
    apply (H q _ it v Q I); auto. apply in_or_app; right; left; auto.
  - intros H (q & pre & it & post & Q & I & Bv & L). exfalso.
    apply (H q _ it w Q I); auto. apply in_or_app; right; left; auto.
Qed.

(** One item, as the loop reads it. *)
Definition item_value (name item : bytes) : option bytes :=
  match split "="%byte item with
  | n :: v :: _ => if bytes_eqb n name then Some v else None
  | _ => None
  end.
Lemma item_value_spec name item v : ~ In "="%byte name -> item_value name item = Some v <-> binds item name v.
Proof.
  intros N. unfold item_value. destruct (first_sep "="%byte item) as [H | (a & b & -> & H)].
  - rewrite (split_no _ _ H). split; [discriminate|]. intros (r & -> & _).
    apply mem_not_In in H. exfalso. apply H, in_or_app; right; left; auto.
  - rewrite (split_app _ _ _ H). apply mem_not_In in H.
    destruct (first_sep "="%byte b) as [Hb | (c & d & -> & Hc)].
    + rewrite (split_no _ _ Hb). apply mem_not_In in Hb. destruct (bytes_eqb a name) eqn:E.
      * apply bytes_eqb_eq in E; subst. split.
        -- intros [= ->]. exists v; split; auto. split; auto.
        -- intros (r & E & Bf). apply (first_cut H N) in E as [_ <-].
           rewrite (before_no Hb Bf). auto.
      * apply bytes_eqb_neq in E. split; [discriminate|]. intros (r & E' & _).
        apply (first_cut H N) in E' as [E' _]. congruence.
    + rewrite (split_app _ _ _ Hc). apply mem_not_In in Hc. destruct (bytes_eqb a name) eqn:E.
      * apply bytes_eqb_eq in E; subst. split.
        -- intros [= ->]. exists (v ++ "="%byte :: d); split; auto. split; eauto.
        -- intros (r & E & Bf). apply (first_cut H N) in E as [_ <-].
           f_equal. refine (before_fun _ Bf). split; eauto.
      * apply bytes_eqb_neq in E. split; [discriminate|]. intros (r & E' & _).
        apply (first_cut H N) in E' as [E' _]. congruence.
Qed.

Fixpoint last_value (name : bytes) (items : list bytes) (acc : option bytes) : option bytes :=
  match items with
  | [] => acc
  | i :: r => last_value name r (match item_value name i with Some v => Some v | None => acc end)
  end.

Lemma parse_items_eq items ps :
  parse_items items ps = Ret {| address := last_value (B "address") items (address ps);
                                hl := last_value (B "hl") items (hl ps) |}.
Proof.
  revert ps. induction items as [|i r IH]; intros ps; [destruct ps; reflexivity|].
  cbn [parse_items last_value]. unfold item_value.
  destruct (split "="%byte i) as [|n [|v l]] eqn:E; cbn [length Nat.leb].
  - rewrite IH; auto.
  - rewrite IH; auto.
  - cbn [index nth_error obind].
    destruct (bytes_eqb n (B "address")) eqn:Ea; destruct (bytes_eqb n (B "hl")) eqn:Eh; cbn [obind];
      rewrite IH; cbn [address hl]; reflexivity.
Qed.

Lemma last_value_spec name items acc : ~ In "="%byte name ->
  (last_value name items acc = acc /\ (forall x w, In x items -> ~ binds x name w)) \/
  (exists pre it post v, items = pre ++ it :: post /\ last_value name items acc = Some v /\
     binds it name v /\ (forall x w, In x post -> ~ binds x name w)).
Proof.
  intros N. revert acc. induction items as [|i r IH]; intros acc.
  - left; split; auto.
  - cbn [last_value]. destruct (IH (match item_value name i with Some v => Some v | None => acc end))
      as [[E H] | (pre & it & post & v & -> & E & Bv & H)].
    + destruct (item_value name i) as [v|] eqn:Ei.
      * right. exists [], i, r, v. repeat split; auto. apply item_value_spec; auto.
      * left. split; auto. intros x w [<-|Hx]; auto. intros Hb.
        apply (item_value_spec i w N) in Hb. congruence.
    + right. exists (i :: pre), it, post, v. repeat split; auto.
Qed.

Definition value_in (name uri : bytes) : option bytes :=
  match split "?"%byte uri with
  | _ :: q :: _ => last_value name (split "&"%byte q) None
  | _ => None
  end.
Lemma parse_uri_eq uri :
  parse_uri uri = Ret (Ok (hd [] (split "?"%byte uri),
                           {| address := value_in (B "address") uri; hl := value_in (B "hl") uri |})).
Proof.
  unfold parse_uri, value_in.
  destruct (split "?"%byte uri) as [|a [|q l]] eqn:E.
  - apply split_not_nil in E; tauto.
  - reflexivity.
  - cbn [is_empty index nth_error obind length Nat.ltb Nat.leb hd].
    rewrite parse_items_eq. reflexivity.
Qed.
Lemma before_hd c s : before c s (hd [] (split c s)).
Proof.
  destruct (first_sep c s) as [H | (a & b & -> & H)].
  - rewrite (split_no _ _ H). cbn. apply mem_not_In in H. split; auto.
  - rewrite (split_app _ _ _ H). cbn. apply mem_not_In in H. split; eauto.
Qed.
Lemma value_in_spec name uri : ~ In "="%byte name -> param_of uri name (value_in name uri).
Proof.
  intros N. unfold value_in.
  assert (Q : forall q, query_of uri q <-> exists a l, split "?"%byte uri = a :: q :: l).
  { intros q. destruct (first_sep "?"%byte uri) as [H | (a & b & -> & H)].
    - rewrite (split_no _ _ H). split.
      + intros (a & r & -> & _). apply mem_not_In in H. exfalso. apply H, in_or_app; right; left; auto.
      + intros (a & l & E). discriminate.
    - rewrite (split_app _ _ _ H). pose proof H as H'. apply mem_not_In in H'.
      pose proof (before_hd "?"%byte b) as Hb. destruct (split "?"%byte b) as [|p l] eqn:E.
      { apply split_not_nil in E; tauto. }
      cbn in Hb. split.
      + intros (a' & r & Ea & Na & Bq). apply (first_cut H' Na) in Ea as [-> ->].
        exists a', l. rewrite (before_fun Hb Bq). auto.
      + intros (a' & l' & [= -> -> ->]). exists a', b; auto. }
  destruct (split "?"%byte uri) as [|a [|q l]] eqn:E.
  - intros q items x w Hq. apply Q in Hq as (? & ? & ?). discriminate.
  - intros q items x w Hq. apply Q in Hq as (? & ? & ?). discriminate.
  - destruct (@last_value_spec name (split "&"%byte q) None N) as [[-> H] | (pre & it & post & v & Ei & -> & Bv & H)].
    + intros q' items x w Hq Hi Hx. apply Q in Hq as (? & ? & Hq). injection Hq as <- <- <-.
      apply items_split in Hi. subst. auto.
    + exists q, pre, it, post. repeat split; auto.
      * apply Q; eauto.
      * destruct pre; discriminate.
      * rewrite <- Ei. symmetry. apply split_join.
      * rewrite <- Ei. apply Forall_forall. intros p Hp. apply mem_not_In, (@split_pieces _ _ _ Hp).
Qed.

Lemma no_eq_address : ~ In "="%byte (B "address"). Proof. apply mem_not_In. reflexivity. Qed.
Lemma no_eq_hl : ~ In "="%byte (B "hl"). Proof. apply mem_not_In. reflexivity. Qed.

Theorem parse_uri_total uri : exists did p, parse_uri uri = Ret (Ok (did, p)) /\ before "?"%byte uri did.
Proof. rewrite parse_uri_eq. eexists _, _; split; [reflexivity | apply before_hd]. Qed.

Theorem parse_uri_meaning uri did p :
  parse_uri uri = Ret (Ok (did, p)) <->
  before "?"%byte uri did /\ param_of uri (B "address") (address p) /\ param_of uri (B "hl") (hl p).
Proof.
  rewrite parse_uri_eq. split.
  - intros [= <- <-]. cbn [address hl]. split; [apply before_hd|].
    split; apply value_in_spec; [apply no_eq_address | apply no_eq_hl].
  - intros (Hb & Ha & Hh). destruct p as [a h]. cbn [address hl] in *.
    rewrite (before_fun (before_hd _ _) Hb).
    rewrite (param_of_fun no_eq_address (value_in_spec _ no_eq_address) Ha).
    rewrite (param_of_fun no_eq_hl (value_in_spec _ no_eq_hl) Hh). reflexivity.
Qed.

(** Parsed values are clean. *)
Lemma param_of_clean uri name o : param_of uri name o -> clean o.
Proof.
  destruct o as [v|]; [|exact (fun _ => I)].
  intros (q & pre & it & post & (a & r & -> & Na & [Nq _]) & (_ & -> & F) & (r' & -> & [Nv Ev]) & _).
  assert (Iv : forall c, In c v -> In c r').
  { intros c Hc. destruct Ev as [-> | [x ->]]; auto. apply in_or_app; auto. }
  assert (It : forall c, In c r' -> In c (name ++ "="%byte :: r')) by (intros; apply in_or_app; right; right; auto).
  cbn [clean]. repeat split; auto.
  - intros Hc. apply Nq. clear -Hc Iv It. induction pre as [|x pre IH].
    + cbn. destruct post; [|apply in_or_app; left]; auto.
    + cbn [app join]. destruct (pre ++ _) eqn:E; [destruct pre; discriminate|].
      apply in_or_app; right. apply in_or_app; right. auto.
  - intros Hc. rewrite Forall_forall in F. refine (F _ _ (It _ (Iv _ Hc))). apply in_or_app; right; left; auto.
Qed.

Lemma mem_query_text c a h t : query_text a h = Some t -> mem c (B "address=&hl=") = false ->
  (forall v, a = Some v -> ~ In c v) -> (forall v, h = Some v -> ~ In c v) -> ~ In c t.
Proof.
  intros E M Ha Hh. apply mem_not_In.
  assert (M1 : mem c (B "address=") = false) by (change (B "address=&hl=") with (B "address=" ++ B "&hl=") in M; rewrite mem_app in M; destruct (mem c (B "address=")); auto).
  assert (M2 : mem c (B "&hl=") = false) by (change (B "address=&hl=") with (B "address=" ++ B "&hl=") in M; rewrite mem_app in M; destruct (mem c (B "address=")); auto; discriminate).
  assert (M3 : mem c (B "hl=") = false) by (change (B "&hl=") with (B "&" ++ B "hl=") in M2; rewrite mem_app in M2; destruct (mem c (B "&")); auto; discriminate).
  destruct a as [a|], h as [h|]; cbn [query_text] in E; try discriminate E; apply some_inj in E; subst t;
    repeat rewrite mem_app; rewrite ?M1, ?M2, ?M3;
    repeat match goal with |- context [mem c ?v] => replace (mem c v) with false
      by (symmetry; apply mem_not_In; auto) end; reflexivity.
Qed.

Lemma build_query_text p : build_query p = query_text (address p) (hl p).
Proof. destruct p as [[a|] [h|]]; cbn; rewrite ?app_nil_r, <- ?app_assoc; reflexivity. Qed.

Lemma item_clean name v other : ~ In "="%byte name -> ~ In "="%byte v ->
  item_value other (name ++ "="%byte :: v) = if bytes_eqb name other then Some v else None.
Proof.
  intros N V. unfold item_value. rewrite split_app by (apply mem_not_In; auto).
  rewrite split_no by (apply mem_not_In; auto). reflexivity.
Qed.

Lemma item_no_amp name v : mem "&"%byte name = false -> ~ In "&"%byte v -> mem "&"%byte (name ++ "="%byte :: v) = false.
Proof. intros H V. rewrite mem_app, H, mem_cons. apply mem_not_In in V. rewrite V. reflexivity. Qed.

Theorem parse_built did p t : ~ In "?"%byte did -> clean (address p) -> clean (hl p) ->
  query_text (address p) (hl p) = Some t -> parse_uri (did ++ B "?" ++ t) = Ret (Ok (did, p)).
Proof.
  intros Nd Ca Ch Et. rewrite parse_uri_eq.
  assert (Nt : ~ In "?"%byte t).
  { apply (mem_query_text Et); [reflexivity|..]; intros v Ev; rewrite Ev in *; [apply Ca | apply Ch]. }
  change (did ++ B "?" ++ t) with (did ++ "?"%byte :: t).
  unfold value_in. rewrite split_app by (apply mem_not_In; auto).
  rewrite (split_no "?"%byte t) by (apply mem_not_In; auto). cbn [hd].
  destruct p as [[a|] [h|]]; cbn [address hl clean query_text] in *; try discriminate Et; apply some_inj in Et; subst t;
    do 4 f_equal.
  all: repeat match goal with H : _ /\ _ |- _ => destruct H end.
  1-2: replace (B "address=" ++ a ++ B "&hl=" ++ h)
      with ((B "address" ++ "="%byte :: a) ++ "&"%byte :: (B "hl" ++ "="%byte :: h)) by (rewrite <- app_assoc; reflexivity);
    rewrite split_app by (apply item_no_amp; auto);
    rewrite split_no by (apply item_no_amp; auto);
    cbn [last_value]; rewrite ?item_clean by (auto using no_eq_address, no_eq_hl); reflexivity.
  1-2: change (B "address=" ++ a) with (B "address" ++ "="%byte :: a);
    rewrite split_no by (apply item_no_amp; auto);
    cbn [last_value]; rewrite ?item_clean by (auto using no_eq_address, no_eq_hl); reflexivity.
  1-2: change (B "hl=" ++ h) with (B "hl" ++ "="%byte :: h);
    rewrite split_no by (apply item_no_amp; auto);
    cbn [last_value]; rewrite ?item_clean by (auto using no_eq_address, no_eq_hl); reflexivity.
Qed.

(** ** Identity values (C06-C08) *)
Definition identity_text (D : deps) (pub : ed_pub D) : bytes :=
  B "did:prople:" ++ mb_encode58 (hex_encode (blake3 D (sha384 D (ed_pub_bytes D pub)))).
Lemma did_identity_eq D (d : did D) :
  did_identity d = Ok (identity_new D (identity_text (account_pubkey (did_account d)))).
Proof. reflexivity. Qed.

Lemma base58_text_encode s : base58_text (base58_encode s).
Proof.
  unfold base58_text. eapply Forall_impl; [|apply base58_alphabet].
  intros c H. apply mem_In in H. exact H.
Qed.
Lemma base58_text_no c t : mem c alphabet58 = false -> base58_text t -> ~ In c t.
Proof.
  intros H F I. unfold base58_text in F. rewrite Forall_forall in F. apply F in I.
  apply mem_In in I. change (mem c alphabet58 = true) in I. congruence.
Qed.
Lemma identity_text_no D pub c : mem c (B "did:prople:z") = false -> mem c alphabet58 = false ->
  ~ In c (@identity_text D pub).
Proof.
  intros H1 H2 H. unfold identity_text, mb_encode58 in H.
  match type of H with In _ (_ ++ _ :: ?t) => change (In c (B "did:prople:z" ++ t)) in H end.
  apply in_app_or in H as [H|H].
  - apply mem_In in H. congruence.
  - revert H. apply (base58_text_no H2), base58_text_encode.
Qed.

Lemma occurrences_0 c s : ~ In c s <-> occurrences c s = 0%nat.
Proof.
  unfold occurrences. split.
  - intros H. induction s as [|x s IH]; auto. cbn. destruct (beq c x) eqn:E.
    + apply beq_eq in E; subst. exfalso. apply H; left; auto.
    + apply IH. intro; apply H; right; auto.
  - intros H I. apply (in_split) in I as (a & b & ->). rewrite filter_app, app_length in H.
    cbn in H. rewrite beq_refl in H. cbn in H. lia.
Qed.
Lemma occurrences_app c s t : occurrences c (s ++ t) = (occurrences c s + occurrences c t)%nat.
Proof. unfold occurrences. rewrite filter_app, app_length. reflexivity. Qed.

(** The text after the last separator. *)
Lemma last_split c s : exists t, last_opt (split c s) = Some t /\ ~ In c t /\ (s = t \/ exists p, s = p ++ c :: t).
Proof.
  remember (length s) as n eqn:E. assert (H : (length s <= n)%nat) by lia. clear E. revert s H.
  induction n as [|n IH]; intros s H.
  - destruct s; [|cbn in H; lia]. exists []. cbn; auto.
  - destruct (first_sep c s) as [Hn | (a & b & -> & Hn)].
    + rewrite (split_no _ _ Hn). exists s. apply mem_not_In in Hn. cbn; auto.
    + rewrite (split_app _ _ _ Hn). rewrite last_opt_cons by apply split_not_nil.
      rewrite app_length in H. cbn in H.
      destruct (IH b) as (t & -> & N & [-> | [p ->]]); [lia|..]; exists t; repeat split; auto; right.
      * eauto.
      * exists (a ++ c :: p). rewrite <- app_assoc. reflexivity.
Qed.

Theorem account_spec D s a :
  identity_account (identity_new D s) = Ok a <->
  ~ In ":"%byte a /\ exists p m, s = p ++ ":"%byte :: m ++ ":"%byte :: a.
Proof.
  unfold identity_account. cbn [id_value identity_new].
  rewrite split_length. change (filter (beq DID_SYNTAX_MARK) s) with (filter (beq ":"%byte) s).
  fold (occurrences ":"%byte s). change DID_SYNTAX_MARK with ":"%byte.
  destruct (last_split ":"%byte s) as (t & E & Nt & Hs). rewrite E. cbn [ok_or].
  destruct (S (occurrences ":"%byte s) <? 3)%nat eqn:L.
  - apply Nat.ltb_lt in L. split; [discriminate|]. intros (_ & p & m & ->). exfalso.
    rewrite occurrences_app in L. change (":"%byte :: m ++ ":"%byte :: a) with ([":"%byte] ++ m ++ [":"%byte] ++ a) in L.
    rewrite !occurrences_app in L. change (occurrences ":"%byte [":"%byte]) with 1%nat in L. lia.
  - apply Nat.ltb_ge in L. split.
    + intros [= <-]. split; auto. destruct Hs as [-> | [q ->]].
      { apply occurrences_0 in Nt. lia. }
      rewrite occurrences_app in L. change (":"%byte :: t) with ([":"%byte] ++ t) in L. rewrite occurrences_app in L.
      change (occurrences ":"%byte [":"%byte]) with 1%nat in L. apply occurrences_0 in Nt.
      assert (In ":"%byte q) as I.
      { destruct (in_dec (fun a b => match beq_eq a b with conj x y => match bool_dec (beq a b) true with left e => left (x e) | right n => right (fun e => n (y e)) end end) ":"%byte q) as [I|I]; auto.
        apply occurrences_0 in I. lia. }
      apply in_split in I as (u & v & ->). exists u, v. rewrite <- app_assoc. reflexivity.
    + intros (Na & p & m & ->). f_equal.
      assert (X : forall x y : bytes, ~ In ":"%byte x -> ~ In ":"%byte y -> forall u v, u ++ ":"%byte :: x = v ++ ":"%byte :: y -> x = y).
      { clear. intros x y Nx Ny u v E. apply (f_equal (@rev _)) in E. rewrite !rev_app_distr in E. cbn [rev] in E.
        rewrite <- !app_assoc in E. cbn [app] in E.
        apply first_cut in E as [E _]; [|rewrite <- in_rev; auto..].
        apply (f_equal (@rev _)) in E. rewrite !rev_involutive in E. auto. }
      destruct Hs as [Hs | [q Hs]].
      * exfalso. apply Nt. rewrite <- Hs. apply in_or_app; right; left; auto.
      * refine (X t a Nt Na q (p ++ ":"%byte :: m) _). rewrite <- Hs, <- app_assoc. reflexivity.
Qed.
Theorem account_error D s e :
  identity_account (identity_new D s) = Err e <-> e = InvalidDID /\ (occurrences ":"%byte s < 2)%nat.
Proof.
  unfold identity_account. cbn [id_value identity_new].
  rewrite split_length. change (filter (beq DID_SYNTAX_MARK) s) with (filter (beq ":"%byte) s).
  fold (occurrences ":"%byte s). change DID_SYNTAX_MARK with ":"%byte.
  destruct (last_split ":"%byte s) as (t & E & Nt & Hs). rewrite E. cbn [ok_or].
  destruct (S (occurrences ":"%byte s) <? 3)%nat eqn:L.
  - apply Nat.ltb_lt in L. split; [intros [= <-]; split; auto; lia | intros [-> _]; auto].
  - apply Nat.ltb_ge in L. split; [discriminate | intros [_ H]; lia].
Qed.

Theorem identity_shape D (d : did D) : exists i t,
  did_identity d = Ok i /\ id_value i = B "did:prople:z" ++ t /\ base58_text t /\ identity_account i = Ok (B "z" ++ t) /\ mb_decode (mb_other D) (B "z" ++ t) =
    Some (Base58Btc, hex_encode (blake3 D (sha384 D (ed_pub_bytes D (ed_pub_key D (acc_pair (did_account d))))))).
Proof.
  eexists _, _. split; [apply did_identity_eq|]. split; [reflexivity|]. split; [apply base58_text_encode|].
  split; [|apply mb_decode_encode58].
  apply account_spec. split.
  - intros [H|H]%in_app_or; [destruct H as [H|[]]; discriminate|]. revert H.
    apply base58_text_no; [reflexivity | apply base58_text_encode].
  - exists (B "did"), (B "prople"). reflexivity.
Qed.

Theorem identity_same_key D (d1 d2 : did D) i1 i2 :
  did_identity d1 = Ok i1 -> did_identity d2 = Ok i2 -> id_value i1 = id_value i2 ->
  let k1 := ed_pub_bytes D (account_pubkey (did_account d1)) in
  let k2 := ed_pub_bytes D (account_pubkey (did_account d2)) in
  k1 = k2 \/ collision (sha384 D) k1 k2 \/ collision (blake3 D) (sha384 D k1) (sha384 D k2).
Proof.
  rewrite !did_identity_eq. intros [= <-] [= <-] E k1 k2. cbn [id_value identity_new] in E. unfold identity_text in E.
  apply app_inv_head in E. apply mb_encode58_inj, hex_encode_inj in E.
  fold k1 k2 in E.
  destruct (bytes_dec k1 k2) as [|N]; auto. right.
  destruct (bytes_dec (sha384 D k1) (sha384 D k2)) as [|N']; [left | right]; split; auto.
Qed.

Theorem identity_same_hash D (d1 d2 : did D) i1 i2 :
  did_identity d1 = Ok i1 -> did_identity d2 = Ok i2 ->
  (id_value i1 = id_value i2 <->
   blake3 D (sha384 D (ed_pub_bytes D (account_pubkey (did_account d1)))) = blake3 D (sha384 D (ed_pub_bytes D (account_pubkey (did_account d2))))).
Proof.
  rewrite !did_identity_eq. intros [= <-] [= <-]. cbn [id_value identity_new]. unfold identity_text. split.
  - intros E. apply app_inv_head in E. apply mb_encode58_inj, hex_encode_inj in E. exact E.
  - intros ->. reflexivity.
Qed.

(** ** build_uri (C01, C04, C05) *)
Lemma build_uri_eq D (d : did D) o :
  build_uri d o = let v := identity_text (account_pubkey (did_account d)) in
  match o with
  | None => Ok v
  | Some p => match query_text (address p) (hl p) with Some t => Ok (v ++ B "?" ++ t) | None => Err BuildURIError end
  end.
Proof.
  unfold build_uri. rewrite did_identity_eq. cbn [bind id_value identity_new]. unfold build_uri_of.
  destruct o as [p|]; [|reflexivity]. rewrite build_query_text.
  destruct (query_text _ _); reflexivity.
Qed.
Lemma query_text_none a h : query_text a h = None <-> a = None /\ h = None.
Proof. destruct a, h; cbn; split; intuition (try discriminate; auto). Qed.

Theorem uri_round_trip D (d : did D) i p uri :
  did_identity d = Ok i -> build_uri d (Some p) = Ok uri ->
  (parse_uri uri = Ret (Ok (id_value i, p)) <-> clean (address p) /\ clean (hl p)).
Proof.
  rewrite did_identity_eq, build_uri_eq. intros [= <-]. cbn [id_value identity_new]. cbv zeta.
  destruct (query_text (address p) (hl p)) as [t|] eqn:E; [|discriminate]. intros [= <-].
  split.
  - rewrite parse_uri_meaning. intros (_ & Ha & Hh). split; eapply param_of_clean; eauto.
  - intros [Ca Ch]. apply (parse_built (did := identity_text _)); auto.
    apply identity_text_no; reflexivity.
Qed.
Theorem uri_round_trip_bare D (d : did D) i uri :
  did_identity d = Ok i -> build_uri d None = Ok uri -> parse_uri uri = Ret (Ok (id_value i, params_default)).
Proof.
  rewrite did_identity_eq, build_uri_eq. intros [= <-] [= <-]. cbn [id_value identity_new].
  apply parse_uri_meaning. assert (N : ~ In "?"%byte (identity_text (account_pubkey (did_account d)))) by (apply identity_text_no; reflexivity).
  split; [split; auto|]. assert (Q : forall q, ~ query_of (identity_text (account_pubkey (did_account d))) q).
  { intros q (a & r & E & _). apply N. rewrite E. apply in_or_app; right; left; auto. }
  split; intros q items x w Hq; exfalso; apply (Q q Hq).
Qed.

Lemma query_text_inj a1 h1 a2 h2 :
  (forall v, a1 = Some v -> ~ In "&"%byte v) -> (forall v, a2 = Some v -> ~ In "&"%byte v) ->
  query_text a1 h1 = query_text a2 h2 -> a1 = a2 /\ h1 = h2.
Proof.
  intros N1 N2 E.
  assert (X : forall a h b, ~ In "&"%byte a -> ~ In "&"%byte b -> B "address=" ++ a ++ B "&hl=" ++ h <> B "address=" ++ b).
  { intros a h b Na Nb Eq. apply app_inv_head in Eq. apply Nb. rewrite <- Eq. apply in_or_app; right; left; auto. }
  destruct a1 as [a1|], h1 as [h1|], a2 as [a2|], h2 as [h2|]; cbn [query_text] in E; try discriminate;
    try (apply some_inj in E); auto.
  - apply app_inv_head in E.
    change (a1 ++ "&"%byte :: B "hl=" ++ h1 = a2 ++ "&"%byte :: B "hl=" ++ h2) in E.
    apply first_cut in E as [-> E]; auto. apply app_inv_head in E. subst; auto.
  - exfalso. apply (X a1 h1 a2); auto.
  - exfalso. apply (X a2 h2 a1); auto.
  - apply app_inv_head in E. subst; auto.
  - apply app_inv_head in E. subst; auto.
Qed.

Definition amp_free (o : option params) : Prop :=
  forall p v, o = Some p -> address p = Some v -> ~ In "&"%byte v.
Theorem build_uri_inj D (d1 d2 : did D) o1 o2 uri i1 i2 :
  did_identity d1 = Ok i1 -> did_identity d2 = Ok i2 ->
  amp_free o1 -> amp_free o2 ->
  build_uri d1 o1 = Ok uri -> build_uri d2 o2 = Ok uri -> id_value i1 = id_value i2 /\ o1 = o2.
Proof.
  rewrite !did_identity_eq, !build_uri_eq. intros [= <-] [= <-] A1 A2. cbn [id_value identity_new]. cbv zeta.
  set (v1 := identity_text _). set (v2 := identity_text _).
  assert (N1 : ~ In "?"%byte v1) by (apply identity_text_no; reflexivity).
  assert (N2 : ~ In "?"%byte v2) by (apply identity_text_no; reflexivity).
  destruct o1 as [p1|], o2 as [p2|]; intros E1 E2.
  - destruct (query_text (address p1) (hl p1)) as [t1|] eqn:Q1; [|discriminate].
    destruct (query_text (address p2) (hl p2)) as [t2|] eqn:Q2; [|discriminate].
    assert (E : v1 ++ "?"%byte :: t1 = v2 ++ "?"%byte :: t2) by (rewrite <- E2 in E1; exact (ok_inj E1)).
    apply first_cut in E as [Ev Et]; auto. split; auto. subst t2. rewrite <- Q2 in Q1.
    apply query_text_inj in Q1 as [Ea Eh]; [|intros v Ev'; eapply A1; eauto | intros v Ev'; eapply A2; eauto].
    destruct p1, p2; cbn in *; subst; auto.
  - destruct (query_text (address p1) (hl p1)) as [t1|] eqn:Q1; [|discriminate].
    exfalso. apply N2. rewrite <- E1 in E2. rewrite (ok_inj E2).
    apply in_or_app; right; left; auto.
  - destruct (query_text (address p2) (hl p2)) as [t1|] eqn:Q1; [|discriminate].
    exfalso. apply N1. rewrite <- E2 in E1. rewrite (ok_inj E1).
    apply in_or_app; right; left; auto.
  - split; [|reflexivity]. rewrite <- E2 in E1. exact (ok_inj E1).
Qed.

Theorem build_uri_fails D (d : did D) o e :
  build_uri d o = Err e <-> e = BuildURIError /\ exists p, o = Some p /\ address p = None /\ hl p = None.
Proof.
  rewrite build_uri_eq. cbv zeta. destruct o as [p|].
  - destruct (query_text (address p) (hl p)) eqn:Q.
    + split; [discriminate|]. intros (_ & p' & [= <-] & H). apply query_text_none in H. congruence.
    + apply query_text_none in Q. split; [intros [= <-]; eauto | intros [-> _]; auto].
  - split; [discriminate | intros (_ & p & [=] & _)].
Qed.
Theorem parameter_injection D (d : did D) x y :
  let honest := {| address := Some x; hl := Some y |} in
  let forged := {| address := Some (x ++ B "&hl=" ++ y); hl := None |} in
  honest <> forged /\ build_uri d (Some honest) = build_uri d (Some forged).
Proof. cbv zeta. split; [intros [=]|]. rewrite !build_uri_eq. reflexivity. Qed.
Theorem identity_segments D (d : did D) i :
  did_identity d = Ok i -> occurrences ":"%byte (id_value i) = 2%nat.
Proof.
  intros H. destruct (identity_shape d) as (i' & t & H' & Hv & Ht & _).
  rewrite H in H'. apply ok_inj in H'. subst i'. rewrite Hv, occurrences_app.
  replace (occurrences ":"%byte t) with 0%nat; [reflexivity|].
  symmetry. apply occurrences_0. apply base58_text_no; [reflexivity | exact Ht].
Qed.
Theorem identity_of_key D (d1 d2 : did D) :
  account_pubkey (did_account d1) = account_pubkey (did_account d2) -> did_identity d1 = did_identity d2.
Proof. rewrite !did_identity_eq. intros ->. reflexivity. Qed.
