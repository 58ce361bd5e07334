(** * Props_Fresh: C94 (no secret, nonce or random value is used for two things). *)
From Verif Require Import Base BaseFacts Utf8 Cbor Ident IdentFacts BuildId Crypto Types Serde Store Prost Validate ValidateFacts
  Encrypt Trustee Tasks SpecFresh Props_Keys Props_Tasks Toy ToyT.
From Coq Require Import Strings.String ZifyBool ZifyNat ZifyN.
Open Scope list_scope.

(** ** derived secrets *)
Definition label (u : purpose) : bytes :=
  match u with
  | ForExchange => sv (lit "cryptoballot_trustee_x25519_secret_key")
  | ForPolynomial => sv (lit "cryptoballot_trustee_generator")
  | ForPair => sv (lit "cryptoballot_trustee_shared_secret")
  end.
Lemma label_inj u u' : label u = label u' -> u = u'.
Proof. destruct u, u'; (reflexivity || (vm_compute; discriminate)). Qed.

(** one choice of inputs serves every implementation of the key derivation *)
Theorem C94_derived : exists input, separating input
  /\ forall (C : Crypto) (TC : @TCrypto C) (sk : ed_secret) (e : Identifier),
       x25519_secret sk e = derive (input (sk_bytes sk) e ForExchange)
    /\ (forall t, generator t sk e =
          tg_new (derive (input (sk_bytes sk) e ForPolynomial)) (u8v (tr_index t)) (u8v (tr_threshold t)) (uv (tr_num t)))
    /\ (forall other, shared_secret sk e other = derive (input (x_dh (x25519_secret sk e) other) e ForPair)).
Proof.
  exists (fun k e u => (id_to_bytes e, k, label u)). split.
  - intros k e u k' e' u' H. injection H as A B D. split; [exact B|]. split; [exact (id_to_bytes_inj _ _ A)|exact (label_inj _ _ D)].
  - intros C TC sk e. split; [reflexivity|]. split; reflexivity.
Qed.

Section Fresh.
  Context {C : Crypto} {TC : TCrypto}.

  (** ** nonces of the shares *)
  Fixpoint last_at (i : byte) (keys : list (byte * arr 32)) : option nat :=
    match keys with
    | [] => None
    | (j, _) :: keys' => match last_at i keys' with
                         | Some q => Some (S q)
                         | None => if Byte.eqb j i then Some 0 else None
                         end
    end.
  Lemma last_at_nth i keys : forall q, last_at i keys = Some q -> exists k, nth_error keys q = Some (i, k).
  Proof.
    induction keys as [|[j k] keys IH]; intros q H; cbn [last_at] in H; [discriminate|].
    destruct (last_at i keys) as [q'|].
    - injection H as <-. exact (IH _ eq_refl).
    - destruct (Byte.eqb j i) eqn:E; [|discriminate]. injection H as <-. apply Byte.byte_dec_bl in E. subst j. exists k. reflexivity.
  Qed.
  Lemma shares_from_at {E} (g : tgen) sk e nonces keys : forall n m m', @shares_from C TC E n nonces g sk e keys m = Ok m' ->
    forall i, match last_at i keys with
              | None => lookup m' i = lookup m i
              | Some q => exists k s, nth_error keys q = Some (i, k) /\ tg_polynomial_share g (u8v i) = Some s
                            /\ lookup m' i = Some (es_new (nonces (n + q)) (shared_secret sk e k) s)
              end.
  Proof.
    induction keys as [|[j k] keys IH]; intros n m m' H i; cbn [shares_from] in H; [injection H as <-; reflexivity|].
    apply bind_ok in H as (s & A & H). apply or_panic_ok in A. specialize (IH _ _ _ H i). cbn [last_at].
    destruct (last_at i keys) as [q|].
    - destruct IH as (k' & s' & X & Y & Z). exists k', s'. split; [exact X|]. split; [exact Y|].
      replace (n + S q) with (S n + q) by lia. exact Z.
    - unfold lookup in IH at 2. cbn [imap_put sv] in IH. rewrite put_find in IH.
      destruct (Byte.eqb j i) eqn:Ej; [|exact IH]. apply Byte.byte_dec_bl in Ej. subst j. cbn [option_map snd] in IH.
      exists k, s. split; [reflexivity|]. split; [exact A|]. rewrite Nat.add_0_r. exact IH.
  Qed.
  Lemma byte_eqb_refl (b : byte) : Byte.eqb b b = true.
  Proof. apply Byte.byte_dec_lb. reflexivity. Qed.
  Lemma mem_in k (l : list (byte * bytes)) : mem_key Byte.eqb k (map fst l) = false -> forall v, ~ In (k, v) l.
  Proof.
    induction l as [|[k' v'] l IH]; cbn [map fst mem_key]; intros H v; [auto|]. apply orb_false_iff in H as [A B].
    intros [X|X]; [|exact (IH B v X)]. injection X as -> ->. rewrite byte_eqb_refl in A. discriminate.
  Qed.
  Lemma in_lookup (m : imap Byte.eqb bytes) i es : In (i, es) (sv m) -> lookup m i = Some es.
  Proof.
    unfold lookup. destruct m as [l H]. cbn [sv]. revert H. induction l as [|[k v] l IH]; intros H; [intros []|].
    cbn [nodup_keys] in H. apply andb_true_iff in H as [A B]. apply negb_true_iff in A. cbn [find fst].
    intros [X|X].
    - injection X as -> ->. rewrite byte_eqb_refl. reflexivity.
    - destruct (Byte.eqb k i) eqn:E; [|exact (IH B X)]. apply Byte.byte_dec_bl in E. subst k. destruct (mem_in _ _ A _ X).
  Qed.

  (** the share for trustee [i] is sealed with the nonce drawn for the last key listed under [i] *)
  Theorem C94_share_nonce : forall E t nonces sk keys e cs m, @generate_shares C TC E t nonces sk keys e cs = Ok m ->
    forall i es, In (i, es) (sv m) ->
    exists n k s, nth_error keys n = Some (i, k) /\ (forall n' k', nth_error keys n' = Some (i, k') -> n' <= n)
      /\ sealed (shared_secret sk e k) (nonces n) s es.
  Proof.
    intros E t nonces sk keys e cs m H i es I. unfold generate_shares in H. apply bind_ok in H as (g & G & H).
    pose proof (shares_from_at g sk e nonces keys _ _ _ H i) as X. apply in_lookup in I.
    destruct (last_at i keys) as [q|] eqn:L.
    - destruct X as (k & s & A & B & D). exists q, k, s. split; [exact A|]. split.
      + clear - L. revert q L. induction keys as [|[j kj] keys IH]; intros q L n' k' N; [destruct n'; discriminate|]. cbn [last_at] in L.
        destruct (last_at i keys) as [q'|] eqn:L'.
        * injection L as <-. destruct n' as [|n']; [lia|]. specialize (IH _ eq_refl _ _ N). lia.
        * destruct n' as [|n']; [lia|]. exfalso. clear - L' N. cbn [nth_error] in N. revert n' N.
          induction keys as [|[j0 k0] keys IH]; intros n' N; [destruct n'; discriminate|]. cbn [last_at] in L'.
          destruct (last_at i keys) as [q'|]; [discriminate|]. destruct n' as [|n'].
          -- injection N as -> ->. rewrite byte_eqb_refl in L'. discriminate.
          -- exact (IH eq_refl _ N).
      + rewrite D in I. injection I as <-. reflexivity.
    - rewrite X in I. discriminate.
  Qed.
  Theorem C94_nonces_differ : forall E t nonces sk keys e cs m, @generate_shares C TC E t nonces sk keys e cs = Ok m ->
    (forall n n', n < List.length keys -> n' < List.length keys -> nonces n = nonces n' -> n = n') ->
    forall i es i' es', In (i, es) (sv m) -> In (i', es') (sv m) -> firstn 12 es = firstn 12 es' -> i = i' /\ es = es'.
  Proof.
    intros E t nonces sk keys e cs m H D i es i' es' I I' F.
    destruct (C94_share_nonce _ _ _ _ _ _ _ _ H _ _ I) as (n & k & s & A & _ & S).
    destruct (C94_share_nonce _ _ _ _ _ _ _ _ H _ _ I') as (n' & k' & s' & A' & _ & S').
    assert (N : nonces n = nonces n').
    { apply arr_ext. rewrite S, S' in F.
      rewrite !firstn_app, !arr_len, Nat.sub_diag, !firstn_O, !app_nil_r in F.
      rewrite !firstn_all2 in F by (rewrite arr_len; lia). exact F. }
    apply D in N; [|apply nth_error_Some; congruence|apply nth_error_Some; congruence]. subst n'.
    rewrite A in A'. injection A' as <- <-. split; [reflexivity|]. apply in_lookup in I, I'. congruence.
  Qed.

  (** ** all answers of a node *)
  Section Node.
    Variables (dbg : bool) (sk : ed_secret) (r : Rnd).
    Lemma partial_shares_drawn i t keys cms shs e cts : forall j ds, partial_shares sk r i j t keys cms shs e cts = Ok ds ->
      forall n d, nth_error ds n = Some d -> exists p ct, d = tp_decrypt_share p ct (r_share r i (j + n)).
    Proof.
      induction cts as [|ct cts IH]; intros j ds H n d N; cbn [partial_shares] in H; [injection H as <-; destruct n; discriminate|].
      apply bind_ok in H as (d0 & A & H). apply bind_ok in H as (ds0 & B & H). injection H as <-. destruct n as [|n].
      - cbn [nth_error] in N. injection N as <-. apply map_err_ok in A. unfold partial_decrypt in A. apply bind_ok in A as (p & P & A).
        injection A as <-. exists p, ct. rewrite Nat.add_0_r. reflexivity.
      - replace (j + S n) with (S j + n) by lia. exact (IH _ _ B _ _ N).
    Qed.
    Lemma partials_drawn t keys cms shs e l : forall i xs, partials_from sk r i t keys cms shs e l = Ok xs ->
      forall n x, nth_error xs n = Some x -> made_with r (i + n) (s_tx x).
    Proof.
      induction l as [|[[[up idx] contest] cts] l IH]; intros i xs H n x N; cbn [partials_from] in H; [injection H as <-; destruct n; discriminate|].
      apply bind_ok in H as (ds & A & H). apply bind_ok in H as (x0 & B & H). apply bind_ok in H as (xs0 & D & H). injection H as <-.
      destruct n as [|n].
      - cbn [nth_error] in N. injection N as <-. unfold tsign in B. apply map_err_ok, sign_ok in B as [-> _]. cbn [s_tx made_with pd_shares].
        rewrite Nat.add_0_r. intros j d J. exact (partial_shares_drawn _ _ _ _ _ _ _ _ _ A _ _ J).
      - replace (i + S n) with (S i + n) by lia. exact (IH _ _ D _ _ N).
    Qed.
    Lemma produce_drawn s el t c m xs : produce_partials sk r s el t c m = Ok xs ->
      forall n x, nth_error xs n = Some x -> made_with r n (s_tx x).
    Proof.
      unfold produce_partials. intros H. apply bind_ok in H as (shs & _ & H). apply bind_ok in H as (cs & _ & H).
      apply bind_ok in H as (shares & _ & H). destruct m as [m|].
      - exact (partials_drawn _ _ _ _ _ _ _ _ H).
      - apply bind_ok in H as (vs & _ & H). exact (partials_drawn _ _ _ _ _ _ _ _ H).
    Qed.
    Lemma first_mixes_drawn el t key l : forall i xs, first_mixes sk r i el t key l = Ok xs ->
      forall n x, nth_error xs n = Some x -> made_with r (i + n) (s_tx x).
    Proof.
      induction l as [|[c votes] l IH]; intros i xs H n x N; cbn [first_mixes] in H; [injection H as <-; destruct n; discriminate|].
      apply bind_ok in H as (mp & A & H). apply bind_ok in H as (x0 & B & H). apply bind_ok in H as (xs0 & D & H). injection H as <-.
      destruct n as [|n].
      - cbn [nth_error] in N. injection N as <-. unfold tsign in B. apply map_err_ok, sign_ok in B as [-> _]. cbn [s_tx made_with mx_out mx_proof].
        rewrite Nat.add_0_r. apply ok_or_ok in A. unfold mix in A. destruct mp as [o p]. eauto.
      - replace (i + S n) with (S i + n) by lia. exact (IH _ _ D _ _ N).
    Qed.
    Lemma one_drawn t xs : made_with r 0 t -> one sk t = Ok xs -> forall n x, nth_error xs n = Some x -> made_with r n (s_tx x).
    Proof.
      intros M H n x N. unfold one in H. apply bind_ok in H as (x0 & A & H). injection H as <-.
      destruct n as [|n]; [|destruct n; discriminate]. injection N as <-. unfold tsign in A. apply map_err_ok, sign_ok in A as [-> _]. exact M.
    Qed.
    Ltac none := let H := fresh in intros H; injection H as <-; intros [|?] ? ?; discriminate.

    (** the i-th answer uses the draws numbered i, and its j-th part the one numbered j: no draw serves twice *)
    Theorem C94_own_draws : forall s x xs, generate_transactions dbg sk r s x = Ok xs ->
      forall i y, nth_error xs i = Some y -> made_with r i (s_tx y).
    Proof.
      intros s x xs. unfold generate_transactions. destruct (s_tx x) as [el|c|sh|p|k|v|ve|m|pd|d]; try none.
      - unfold process_election. destruct (trustee_from_election el (node_key sk)); [|none]. apply one_drawn. exact I.
      - unfold process_keygen_commitment. intros H. apply bind_ok in H as (el & _ & H).
        destruct (trustee_from_election el (node_key sk)) as [t|]; [|revert H; none].
        apply bind_ok in H as (cs & _ & H). destruct (Nat.eqb _ _); [|revert H; none].
        apply bind_ok in H as (shares & G & H). revert H. apply one_drawn. cbn [made_with ks_shares].
        exists (fun j => match last_at j (x_keys_of cs) with Some q => q | None => 0 end).
        unfold generate_shares in G. apply bind_ok in G as (g & _ & G). pose proof (shares_from_at g sk _ _ _ _ _ _ G) as X. split.
        + intros j j' es es' A B EQ. pose proof (X j) as Y. pose proof (X j') as Z. apply in_lookup in A, B.
          destruct (last_at j (x_keys_of cs)) as [q|]; [|rewrite Y in A; discriminate].
          destruct (last_at j' (x_keys_of cs)) as [q'|]; [|rewrite Z in B; discriminate].
          destruct Y as (k1 & s1 & N1 & _), Z as (k2 & s2 & N2 & _). subst q'. congruence.
        + intros j es A. pose proof (X j) as Y. apply in_lookup in A.
          destruct (last_at j (x_keys_of cs)) as [q|]; [|rewrite Y in A; discriminate].
          destruct Y as (k1 & s1 & _ & _ & L). rewrite L in A. injection A as <-. eexists _, s1. reflexivity.
      - unfold process_keygen_share. intros H. apply bind_ok in H as (el & _ & H).
        destruct (trustee_from_election el (node_key sk)) as [t|]; [|revert H; none].
        apply bind_ok in H as (shs & _ & H). destruct (negb _); [revert H; none|].
        apply bind_ok in H as (cs & _ & H). apply bind_ok in H as (l & _ & H). apply bind_ok in H as (kp & _ & H).
        revert H. apply one_drawn. exact I.
      - unfold process_keygen_public_key. intros H. apply bind_ok in H as (el & _ & H). destruct (pk_eqb _ _); [|revert H; none].
        apply bind_ok in H as (pks & _ & H). destruct (Nat.eqb _ _); [|revert H; none]. revert H. apply one_drawn. exact I.
      - unfold process_voting_end. intros H. apply bind_ok in H as (el & _ & H).
        destruct (trustee_from_election el (node_key sk)) as [t|]; [|revert H; none]. destruct (el_mix_config el).
        + destruct (Byte.eqb _ _); [|revert H; none]. apply bind_ok in H as (k & _ & H). apply bind_ok in H as (vs & _ & H).
          exact (first_mixes_drawn _ _ _ _ _ _ H).
        + destruct (el_contests el); [revert H; none|]. exact (produce_drawn _ _ _ _ _ _ H).
      - unfold process_mix. intros H. apply bind_ok in H as (el & _ & H).
        destruct (trustee_from_election el (node_key sk)) as [t|]; [|revert H; none]. destruct (el_mix_config el); [|revert H; none].
        apply bind_ok in H as (next & _ & H). destruct (Byte.eqb _ _); [exact (produce_drawn _ _ _ _ _ _ H)|].
        apply bind_ok in H as (turn & _ & H). destruct (Byte.eqb _ _); [|revert H; none].
        apply bind_ok in H as (k & _ & H). apply bind_ok in H as (mp & A & H). revert H. apply one_drawn.
        cbn [made_with mx_out mx_proof]. apply ok_or_ok in A. unfold mix in A. destruct mp as [o p]. eauto.
      - unfold process_partial_decryption. intros H. apply bind_ok in H as (el & _ & H).
        destruct (trustee_from_election el (node_key sk)) as [t|]; [|revert H; none].
        apply bind_ok in H as (l & _ & H). destruct (Nat.leb _ _); [|revert H; none].
        apply bind_ok in H as (parts & _ & H). apply bind_ok in H as (cts & _ & H). apply bind_ok in H as (pks & _ & H).
        apply bind_ok in H as (sels & _ & H). revert H. apply one_drawn. exact I.
    Qed.
  End Node.

  (** ** votes *)
  Theorem C94_votes_in_turn : forall R enc key (vote : list Selection) (g g' : R) cts,
    encrypt_vote enc key vote g = (cts, g') <-> in_turn enc key g (map sel_encode vote) cts g'.
  Proof.
    intros R enc key vote. induction vote as [|s vote IH]; intros g g' cts; cbn [encrypt_vote map].
    - split; [intros H; injection H as <- <-; constructor|intros H; inversion H; subst; reflexivity].
    - destruct (enc key g (sel_encode s)) as [ct g1] eqn:E1. destruct (encrypt_vote enc key vote g1) as [cts2 g2] eqn:E2. split.
      + intros H. injection H as <- <-. econstructor; [exact E1|]. apply IH, E2.
      + intros H. inversion H as [|? ? ? ct' cts' g1' ? E1' T]; subst. rewrite E1 in E1'. injection E1' as <- <-. apply IH in T. congruence.
  Qed.

  (** ** sender and recipient share one key, and the sealing names neither: a share sent by [a] to [b] opens
      at [a] as if sent by [b] *)
  Theorem C94_reflects : dh_agrees -> gcm_opens -> scalar_faithful ->
    forall E t nonces a b e keys cs m i j es,
    @generate_shares C TC E t nonces a keys e cs = Ok m -> In (i, es) (sv m) -> sender_key keys i = Some (x25519_public b e) ->
    sender_key keys j = Some (x25519_public a e) -> exists s,
    open_shares b [(j, es)] keys e = Ok [(j, s)] /\ open_shares a [(i, es)] keys e = Ok [(i, s)].
  Proof.
    intros DH Op Sc E t nonces a b e keys cs m i j es H I Ki Kj.
    destruct (C50_published_share_opens DH Op Sc _ _ _ _ _ _ _ _ _ _ _ _ H Ki Kj) as (g & s & es' & G & P & L & O).
    apply in_lookup in I. rewrite I in L. injection L as <-. exists s. split; [exact O|].
    unfold open_shares in O |- *. cbn [map_res fst snd] in O |- *. rewrite Ki. rewrite Kj in O. cbn [ok_or bind] in O |- *.
    rewrite (C50_same_secret DH a b e). destruct (es_decrypt es _) as [s'| |]; cbn [bind] in O |- *; [|discriminate..].
    injection O as ->. reflexivity.
  Qed.
End Fresh.

(** ** a concrete case *)
Section Case.
  Local Existing Instance Toy.
  Local Existing Instance ToyT.
  Definition draws (n : nat) : arr 12 := arr_rep (u8_of (N.of_nat n)) 12.
  Definition sent : imap Byte.eqb bytes :=
    match @generate_shares Toy ToyT unit two draws (key_of x0a) (key_list Scene.EID) Scene.EID [] with Ok m => m | _ => imap_empty end.
  (** two shares, sealed with the draws 0 and 1 *)
  Example C94_case :
    @generate_shares Toy ToyT unit two draws (key_of x0a) (key_list Scene.EID) Scene.EID [] = Ok sent
    /\ map (fun p => (fst p, firstn 12 (snd p))) (sv sent) = [(x01, arr_l (draws 0)); (x02, arr_l (draws 1))].
  Proof. split; vm_compute; reflexivity. Qed.

  (** a node answers with one transaction of shares, or with two partial decryptions *)
  Example C94_node_case :
    types (generate_transactions true (key_of x0a) rnd0 (after 3 plain) (at_pos plain 2)) = Some [TKeyGenShare]
    /\ types (generate_transactions true (key_of x0a) rnd0 (ms_store (ms_from plain11)) (at_pos plain 10))
        = Some [TPartialDecryption; TPartialDecryption].
  Proof. destruct plain_facts as (_ & (_ & A & _) & _ & (B & _) & _). exact (conj A B). Qed.

  (** false: a share that opens as one from trustee 2 was sealed by trustee 2; it may be one's own *)
  Theorem C94_sender_refuted : exists es s, In (x02, es) (sv sent)
    /\ open_shares (key_of x0a) [(x02, es)] (key_list Scene.EID) Scene.EID = Ok [(x02, s)].
  Proof.
    assert (H : @generate_shares Toy ToyT unit two draws (key_of x0a) (key_list Scene.EID) Scene.EID [] = Ok sent) by (vm_compute; reflexivity).
    destruct (nth_error (sv sent) 1) as [[i es]|] eqn:N; [|vm_compute in N; discriminate].
    assert (i = x02) as -> by (vm_compute in N; congruence).
    destruct (C94_reflects toy_dh_agrees toy_gcm_opens toy_scalar_faithful unit two draws (key_of x0a) (key_of x0b) Scene.EID (key_list Scene.EID)
                [] sent x02 x01 es H (nth_error_In _ _ N) ltac:(vm_compute; reflexivity) ltac:(vm_compute; reflexivity)) as (s & _ & O).
    exists es, s. split; [exact (nth_error_In _ _ N)|exact O].
  Qed.
End Case.

Print Assumptions C94_derived.
Print Assumptions C94_share_nonce.
Print Assumptions C94_nonces_differ.
Print Assumptions C94_own_draws.
Print Assumptions C94_votes_in_turn.
Print Assumptions C94_reflects.
Print Assumptions C94_sender_refuted.
