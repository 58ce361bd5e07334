(** * Trustee: operations of a trustee (cryptoballot/src/trustee.rs) and mixing (mix.rs 267-290).

    The further library functions these call are the fields of [TCrypto]; as with [Crypto], nothing is
    assumed about them, laws are named at the end.  A generator of random numbers is replaced by the
    values drawn. *)
From Verif Require Import Base Utf8 Cbor Ident BuildId Crypto Types Serde Validate.
From Coq Require Import Strings.String.
Open Scope list_scope.

Class TCrypto {C : Crypto} := {
  (* ed25519_dalek::SecretKey::as_bytes *)
  sk_bytes : ed_secret -> bytes;
  (* Hkdf::<Sha256>::new(Some(salt), ikm).expand(info, 32 bytes): 32 bytes is always a valid length *)
  hkdf : bytes -> bytes -> bytes -> arr 32;
  (* x25519: PublicKey::from(&StaticSecret::from(bytes)), StaticSecret::from(bytes).diffie_hellman(key) *)
  x_public : arr 32 -> arr 32;
  x_dh : arr 32 -> arr 32 -> bytes;
  (* Aes256Gcm: encrypt (cannot fail on 32 bytes), decrypt *)
  gcm_enc : arr 32 -> arr 12 -> bytes -> bytes;
  gcm_dec : arr 32 -> arr 12 -> bytes -> option bytes;
  (* cryptid::Scalar: as_bytes, try_from(Vec<u8>) *)
  scalar : Type;
  scalar_bytes : scalar -> bytes;
  scalar_of : bytes -> option scalar;
  (* cryptid::threshold: generator seeded by ChaCha20Rng::from_seed, index, threshold, number of trustees *)
  tgen : Type;
  tparty : Type;
  tg_new : arr 32 -> N -> N -> N -> tgen;
  tg_commitment : tgen -> KeygenCommitment;
  tg_receive_commitment : tgen -> N -> KeygenCommitment -> option tgen;
  tg_polynomial_share : tgen -> N -> option scalar;
  tg_receive_share : tgen -> N -> scalar -> option tgen;
  tg_finish : tgen -> option tparty;
  tp_pubkey : tparty -> EGPublicKey;
  tp_proof : tparty -> PubkeyProof;
  tp_decrypt_share : tparty -> Ciphertext -> bytes -> DecryptShare;
  (* PedersenCtx::with_generators(seed, n); Shuffle::new; gen_proof; into_outputs *)
  shuffle : bytes -> N -> list (list Ciphertext) -> EGPublicKey -> bytes -> option (list (list Ciphertext) * ShuffleProof)
}.

Section Trustee.
  Context {C : Crypto} {TC : TCrypto}.

  (** the errors of these functions: [ValidationError::TrusteeMissing], [ShareDecryptionError] *)
  Inductive TrError := TrusteeMissing (i : byte) | ShareDecryptionError.

  (** trustee.rs 147-155 *)
  Definition x25519_secret (sk : ed_secret) (e : Identifier) : arr 32 :=
    hkdf (id_to_bytes e) (sk_bytes sk) (sv (lit "cryptoballot_trustee_x25519_secret_key")).
  (** 157-161 *)
  Definition x25519_public (sk : ed_secret) (e : Identifier) : arr 32 := x_public (x25519_secret sk e).
  (** 163-179 *)
  Definition shared_secret (sk : ed_secret) (e : Identifier) (other : arr 32) : arr 32 :=
    hkdf (id_to_bytes e) (x_dh (x25519_secret sk e) other) (sv (lit "cryptoballot_trustee_shared_secret")).

  (** ** [EncryptedShare], 253-308 *)
  Definition es_new (nonce : arr 12) (key : arr 32) (s : scalar) : bytes :=
    arr_l nonce ++ gcm_enc key nonce (scalar_bytes s).
  Definition es_decrypt (es : bytes) (key : arr 32) : res TrError scalar :=
    let! nonce := or_panic (arr_of 12 (firstn 12 es)) PIndex in
    let! plain := ok_or (gcm_dec key nonce (skipn 12 es)) ShareDecryptionError in
    ok_or (scalar_of plain) ShareDecryptionError.

  (** [generator], 211-226 *)
  Definition generator (t : Trustee) (sk : ed_secret) (e : Identifier) : tgen :=
    tg_new (hkdf (id_to_bytes e) (sk_bytes sk) (sv (lit "cryptoballot_trustee_generator")))
           (u8v (tr_index t)) (u8v (tr_threshold t)) (uv (tr_num t)).
  (** [keygen_commitment], 84-86 *)
  Definition keygen_commitment (t : Trustee) (sk : ed_secret) (e : Identifier) : KeygenCommitment :=
    tg_commitment (generator t sk e).
  (** the loops over [receive_commitment(..).expect(..)] and [receive_share(..).expect(..)] *)
  Fixpoint receive_commitments {E} (g : tgen) (l : list (byte * KeygenCommitment)) : res E tgen :=
    match l with
    | [] => Ok g
    | (i, c) :: l' => let! g' := or_panic (tg_receive_commitment g (u8v i) c) PExpect in receive_commitments g' l'
    end.
  Fixpoint receive_shares {E} (g : tgen) (l : list (byte * scalar)) : res E tgen :=
    match l with
    | [] => Ok g
    | (i, s) :: l' => let! g' := or_panic (tg_receive_share g (u8v i) s) PExpect in receive_shares g' l'
    end.

  (** [IndexMap::insert]: a repeated key keeps its place and gets the new value *)
  Fixpoint put (k : byte) (v : bytes) (l : list (byte * bytes)) : list (byte * bytes) :=
    match l with
    | [] => [(k, v)]
    | (k', v') :: l' => if Byte.eqb k k' then (k', v) :: l' else (k', v') :: put k v l'
    end.
  Lemma put_keys k v l k0 : mem_key Byte.eqb k0 (map fst (put k v l)) = Byte.eqb k0 k || mem_key Byte.eqb k0 (map fst l).
  Proof.
    induction l as [|[k' v'] l IH]; cbn [put map fst mem_key]; [reflexivity|].
    destruct (Byte.eqb k k') eqn:E; cbn [map fst mem_key].
    - apply Byte.byte_dec_bl in E. subst k'. destruct (Byte.eqb k0 k); reflexivity.
    - rewrite IH. destruct (Byte.eqb k0 k), (Byte.eqb k0 k'); reflexivity.
  Qed.
  Lemma put_nodup k v l : nodup_keys Byte.eqb l = true -> nodup_keys Byte.eqb (put k v l) = true.
  Proof.
    induction l as [|[k' v'] l IH]; cbn [put nodup_keys map mem_key]; [reflexivity|].
    rewrite andb_true_iff. intros [A B]. destruct (Byte.eqb k k') eqn:E; cbn [nodup_keys].
    - rewrite A. exact B.
    - rewrite put_keys, IH by exact B. rewrite andb_true_r. destruct (Byte.eqb k' k) eqn:E'; [|exact A].
      apply Byte.byte_dec_bl in E'. subst k'. rewrite (Byte.byte_dec_lb eq_refl) in E. discriminate.
  Qed.
  Definition imap_put (k : byte) (v : bytes) (m : imap Byte.eqb bytes) : imap Byte.eqb bytes :=
    mk_sub (put k v (sv m)) (norm_true (put_nodup k v (sv m) (s_ok m))).
  Definition imap_empty : imap Byte.eqb bytes := @mk_sub _ (nodup_keys Byte.eqb) [] eq_refl.

  (** [generate_shares], 88-119; [nonces n] is the nonce drawn for the n-th share *)
  Fixpoint shares_from {E} (n : nat) (nonces : nat -> arr 12) (g : tgen) (sk : ed_secret) (e : Identifier)
    (keys : list (byte * arr 32)) (m : imap Byte.eqb bytes) : res E (imap Byte.eqb bytes) :=
    match keys with
    | [] => Ok m
    | (i, k) :: keys' =>
        let! s := or_panic (tg_polynomial_share g (u8v i)) PUnwrap in
        shares_from (S n) nonces g sk e keys' (imap_put i (es_new (nonces n) (shared_secret sk e k) s) m)
    end.
  Definition generate_shares {E} (t : Trustee) (nonces : nat -> arr 12) (sk : ed_secret)
    (keys : list (byte * arr 32)) (e : Identifier) (commitments : list (byte * KeygenCommitment))
    : res E (imap Byte.eqb bytes) :=
    let! g := receive_commitments (generator t sk e) commitments in
    shares_from 0 nonces g sk e keys imap_empty.

  (** [decrypt_shares], 121-145: the last key with the sender's index is used *)
  Definition sender_key (keys : list (byte * arr 32)) (i : byte) : option (arr 32) :=
    option_map snd (find (fun p => Byte.eqb (fst p) i) (rev keys)).
  Definition open_shares (sk : ed_secret) (shares : list (byte * bytes)) (keys : list (byte * arr 32)) (e : Identifier)
    : res TrError (list (byte * scalar)) :=
    map_res (fun p =>
      let! k := ok_or (sender_key keys (fst p)) (TrusteeMissing (fst p)) in
      let! s := es_decrypt (snd p) (shared_secret sk e k) in
      Ok (fst p, s)) shares.

  (** [generate_party], 228-251 *)
  Definition generate_party {E} (t : Trustee) (sk : ed_secret) (commitments : list (byte * KeygenCommitment))
    (shares : list (byte * scalar)) (e : Identifier) : res E tparty :=
    let! g := receive_commitments (generator t sk e) commitments in
    let! g := receive_shares g shares in
    or_panic (tg_finish g) PUnwrap.
  (** the common prefix of [generate_public_key] (181-192) and [partial_decrypt] (194-208) *)
  Definition party (t : Trustee) (sk : ed_secret) (keys : list (byte * arr 32))
    (commitments : list (byte * KeygenCommitment)) (shares : list (byte * bytes)) (e : Identifier) : res TrError tparty :=
    let! opened := open_shares sk shares keys e in
    generate_party t sk commitments opened e.
  Definition generate_public_key t sk keys commitments shares e : res TrError (EGPublicKey * PubkeyProof) :=
    let! p := party t sk keys commitments shares e in Ok (tp_pubkey p, tp_proof p).
  Definition partial_decrypt (rnd : bytes) t sk keys commitments shares (ct : Ciphertext) e : res TrError DecryptShare :=
    let! p := party t sk keys commitments shares e in Ok (tp_decrypt_share p ct rnd).

  (** [Trustee::from_election_tx], 47-66: the last trustee with the key; the default trustee has index 0 *)
  Definition from_election_tx {E} (el : ElectionTx) (k : PublicKey) : res E Trustee :=
    match find (fun t => pk_eqb (tr_public_key t) k) (rev (el_trustees el)) with
    | Some t => if Byte.eqb (tr_index t) x00 then Panic PAssert
                else Ok (mk_trustee (tr_public_key t) (tr_index t)
                           (u_of 8 (N.of_nat (List.length (el_trustees el)))) (el_threshold el))
    | None => Panic PAssert
    end.

  (** [mix], mix.rs 269-290 *)
  Definition mix (rnd : bytes) (ins : list (list Ciphertext)) (key : EGPublicKey)
    (trustee mix_index : byte) (contest batch : u32) : option (list (list Ciphertext) * ShuffleProof) :=
    shuffle (mix_seed contest batch mix_index trustee) (N.of_nat (List.length ins)) ins key rnd.
End Trustee.

(** ** Named laws *)
Section Laws.
  Context {C : Crypto} {TC : TCrypto}.
  (** Diffie-Hellman: both sides compute the same value *)
  Definition dh_agrees : Prop := forall a b, x_dh a (x_public b) = x_dh b (x_public a).
  (** decrypting an encryption under the same key and nonce gives the message *)
  Definition gcm_opens : Prop := forall k n m, gcm_dec k n (gcm_enc k n m) = Some m.
  (** only encryptions decrypt (the tag is recomputed) *)
  Definition gcm_exact : Prop := forall k n c m, gcm_dec k n c = Some m -> c = gcm_enc k n m.
  Definition scalar_faithful : Prop := forall s, scalar_of (scalar_bytes s) = Some s.
  (** a shuffle keeps the number of rows and its proof verifies *)
  Definition shuffle_verifies : Prop := forall seed n ins key rnd outs proof,
    shuffle seed n ins key rnd = Some (outs, proof) ->
    List.length outs = List.length ins /\ shuffle_verify seed n ins outs key proof = true.
  (** a party's decryption share verifies against its own proof *)
  Definition party_share_verifies : Prop := forall p ct rnd,
    share_verify (tp_decrypt_share p ct rnd) (tp_proof p) ct = true.
End Laws.
