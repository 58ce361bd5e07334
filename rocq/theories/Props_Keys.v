(** * Props_Keys: C50 (the encrypted key shares). *)
From Verif Require Import Base BaseFacts Utf8 Cbor Ident Crypto Types Serde ValidateFacts Trustee Toy ToyT.
From Coq Require Import Strings.String ZifyBool ZifyNat ZifyN.
Open Scope list_scope.

Lemma arr_of_len n l a : arr_of n l = Some a -> arr_l a = l.
Proof. intros H. apply arr_of_some in H. exact H. Qed.

Lemma find_app {A} (f : A -> bool) l l' : find f (l ++ l') = match find f l with Some a => Some a | None => find f l' end.
Proof. induction l as [|a l IH]; [reflexivity|]. cbn [app find]. destruct (f a); [reflexivity|exact IH]. Qed.

Section Props.
  Context {C : Crypto} {TC : TCrypto}.

  (** both ends of a pair of trustees derive the same symmetric key *)
  Theorem C50_same_secret : dh_agrees -> forall a b e,
    shared_secret a e (x25519_public b e) = shared_secret b e (x25519_public a e).
  Proof. intros DH a b e. unfold shared_secret, x25519_public. rewrite DH. reflexivity. Qed.

  Theorem C50_share_arrives : dh_agrees -> gcm_opens -> scalar_faithful ->
    forall a b e nonce s,
    es_decrypt (es_new nonce (shared_secret a e (x25519_public b e)) s) (shared_secret b e (x25519_public a e)) = Ok s.
  Proof.
    intros DH Op Sc a b e nonce s. rewrite (C50_same_secret DH). unfold es_decrypt, es_new.
    pose proof (arr_len nonce) as L.
    rewrite firstn_app, (firstn_all2 (arr_l nonce)) by lia. replace (12 - List.length (arr_l nonce)) with 0 by lia. cbn [firstn].
    rewrite app_nil_r, arr_of_arr. cbn [or_panic bind].
    rewrite skipn_app, (skipn_all2 (arr_l nonce)) by lia. replace (12 - List.length (arr_l nonce)) with 0 by lia. cbn [skipn app].
    rewrite Op. cbn [ok_or bind]. rewrite Sc. reflexivity.
  Qed.

  (** what a trustee publishes for index [i]: the encryption, for the last key listed under [i], of
      its polynomial share for [i] *)
  Lemma put_find k v l i : find (fun p => Byte.eqb (fst p) i) (put k v l) =
    if Byte.eqb k i then Some (k, v) else find (fun p : byte * bytes => Byte.eqb (fst p) i) l.
  Proof.
    induction l as [|[k' v'] l IH]; cbn [put find fst]; [reflexivity|].
    destruct (Byte.eqb k k') eqn:E; cbn [find fst].
    - apply Byte.byte_dec_bl in E. subst k'. destruct (Byte.eqb k i) eqn:Ei; reflexivity.
    - rewrite IH. destruct (Byte.eqb k' i) eqn:Ei; [|reflexivity]. destruct (Byte.eqb k i) eqn:Ek; [|reflexivity].
      apply Byte.byte_dec_bl in Ei, Ek. subst. rewrite (Byte.byte_dec_lb eq_refl) in E. discriminate.
  Qed.
  Definition lookup (m : imap Byte.eqb bytes) (i : byte) : option bytes :=
    option_map snd (find (fun p => Byte.eqb (fst p) i) (sv m)).
  Lemma shares_from_spec {E} (g : tgen) sk e nonces keys : forall n m m', @shares_from C TC E n nonces g sk e keys m = Ok m' ->
    forall i, match sender_key keys i with
              | None => lookup m' i = lookup m i
              | Some k => exists s nonce, tg_polynomial_share g (u8v i) = Some s
                            /\ lookup m' i = Some (es_new nonce (shared_secret sk e k) s)
              end.
  Proof.
    induction keys as [|[j k] keys IH]; intros n m m' H i; cbn [shares_from] in H; [injection H as <-; reflexivity|].
    apply bind_ok in H as (s & A & H). apply or_panic_ok in A. specialize (IH _ _ _ H i).
    unfold sender_key in *. cbn [rev]. rewrite find_app. destruct (find (fun p => Byte.eqb (fst p) i) (rev keys)) as [p|]; [exact IH|].
    cbn [option_map] in IH. unfold lookup in IH at 2. cbn [imap_put sv find fst] in IH. rewrite put_find in IH. cbn [find fst].
    destruct (Byte.eqb j i) eqn:Ej; [|exact IH]. apply Byte.byte_dec_bl in Ej. subst j. cbn [option_map snd] in IH |- *. eauto.
  Qed.

  (** from one trustee's published shares to the other's opened ones *)
  Theorem C50_published_share_opens : dh_agrees -> gcm_opens -> scalar_faithful ->
    forall E t nonces a b e keys keys' cs m i j,
    @generate_shares C TC E t nonces a keys e cs = Ok m ->
    sender_key keys i = Some (x25519_public b e) -> sender_key keys' j = Some (x25519_public a e) ->
    exists g s es, @receive_commitments C TC E (generator t a e) cs = Ok g /\ tg_polynomial_share g (u8v i) = Some s
      /\ lookup m i = Some es /\ open_shares b [(j, es)] keys' e = Ok [(j, s)].
  Proof.
    intros DH Op Sc E t nonces a b e keys keys' cs m i j H Ki Kj. unfold generate_shares in H. apply bind_ok in H as (g & G & H).
    pose proof (shares_from_spec g a e nonces keys _ _ _ H i) as X. rewrite Ki in X. destruct X as (s & nonce & S & L).
    exists g, s, (es_new nonce (shared_secret a e (x25519_public b e)) s). repeat (split; [assumption|]).
    unfold open_shares. cbn [map_res fst snd]. rewrite Kj. cbn [ok_or bind]. rewrite (C50_share_arrives DH Op Sc). reflexivity.
  Qed.

  (** an accepted share is exactly an encryption under the shared secret of the scalar returned:
      bytes that were not produced with that key are refused *)
  Theorem C50_altered_share_refused : gcm_exact -> forall es key s,
    es_decrypt es key = Ok s ->
    exists nonce m, scalar_of m = Some s /\ es = arr_l nonce ++ gcm_enc key nonce m.
  Proof.
    intros Ex es key s H. unfold es_decrypt in H. apply bind_ok in H as (nonce & A & H). apply or_panic_ok, arr_of_len in A.
    apply bind_ok in H as (m & B & H). apply ok_or_ok in B, H. exists nonce, m. split; [exact H|].
    apply Ex in B. rewrite <- B, A. symmetry. apply firstn_skipn.
  Qed.
  (** in particular a changed tag or body cannot give another reading of the same plaintext bytes,
      and a share altered behind its nonce that still opens opens to other bytes *)
  Theorem C50_altered_body_differs : gcm_exact -> forall key nonce c c' m m',
    gcm_dec key nonce c = Some m -> gcm_dec key nonce c' = Some m' -> c <> c' -> m <> m'.
  Proof. intros Ex key nonce c c' m m' A B N ->. apply Ex in A, B. congruence. Qed.

  (** it never crashes on twelve bytes or more ... *)
  Theorem C50_no_crash_partial : forall es key p, 12 <= List.length es -> es_decrypt es key <> Panic p.
  Proof.
    intros es key p L. unfold es_decrypt. destruct (arr_of 12 (firstn 12 es)) as [nonce|] eqn:A.
    - cbn [or_panic bind]. destruct (gcm_dec _ _ _) as [m|]; cbn [ok_or bind]; [|discriminate]. destruct (scalar_of m); discriminate.
    - exfalso. assert (X : List.length (firstn 12 es) = 12) by (rewrite firstn_length; lia).
      apply arr_of_none in A. contradiction.
  Qed.
  (** ... and always on fewer *)
  Theorem C50_crash_refuted : exists es, forall key, es_decrypt es key = Panic PIndex.
  Proof. exists [x00; x01; x02]. reflexivity. Qed.
End Props.

(** ** a concrete case: two trustees over the toy instance, whose laws are proved in ToyT *)
Section Case.
  Local Existing Instance Toy.
  Local Existing Instance ToyT.
  Example C50_laws : @dh_agrees Toy ToyT /\ @gcm_opens Toy ToyT /\ @gcm_exact Toy ToyT /\ @scalar_faithful Toy ToyT.
  Proof. exact (conj toy_dh_agrees (conj toy_gcm_opens (conj toy_gcm_exact toy_scalar_faithful))). Qed.
  Definition key_list (e : Identifier) : list (byte * arr 32) :=
    [(x01, x25519_public (key_of x0a) e); (x02, x25519_public (key_of x0b) e)].
  Definition two : Trustee := mk_trustee (pk_of x0a) x01 (u_of 8 2) x02.
  (** trustee 1 publishes, trustee 2 opens; a flipped byte is refused, a truncated share crashes *)
  Example C50_case : let e := Scene.EID in
    match @generate_shares Toy ToyT unit two (fun n => arr_rep (u8_of (N.of_nat n)) 12) (key_of x0a) (key_list e) e [] with
    | Ok m => match lookup m x02 with
              | Some es =>
                  (match open_shares (key_of x0b) [(x01, es)] (key_list e) e with Ok [(i, s)] => Byte.eqb i x01 | _ => false end)
                  && (match es_decrypt (rev (x55 :: tl (rev es))) (shared_secret (key_of x0b) e (x25519_public (key_of x0a) e)) with
                      | Err ShareDecryptionError => true | _ => false end)
                  && (match es_decrypt (firstn 11 es) (shared_secret (key_of x0b) e (x25519_public (key_of x0a) e)) with
                      | Panic PIndex => true | _ => false end)
              | None => false
              end
    | _ => false
    end = true.
  Proof. vm_compute. reflexivity. Qed.
End Case.

Print Assumptions C50_same_secret.
Print Assumptions C50_share_arrives.
Print Assumptions C50_published_share_opens.
Print Assumptions C50_altered_share_refused.
Print Assumptions C50_altered_body_differs.
Print Assumptions C50_no_crash_partial.
Print Assumptions C50_crash_refuted.
