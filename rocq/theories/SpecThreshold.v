(** * SpecThreshold: what the threshold ElGamal scheme of cryptid computes, over a field and a group.

    The scheme (Pedersen's distributed key generation, ElGamal, Lagrange interpolation of decryption
    shares) is written with its mathematical meaning only; [threshold_scheme] says that the library
    functions of [TCrypto] and [Crypto] implement it. *)
From Verif Require Import Base Utf8 Cbor Crypto Ident Types Trustee Lagrange.
From Coq Require Import Sorting.Permutation.
Open Scope list_scope.

Section Spec.
  Context {C : Crypto} {TC : TCrypto} {K : Fld} {M : Mdl}.

  (** what a generator knows *)
  Record view := mk_view { v_index : N; v_threshold : N; v_number : N; v_poly : list F;
                           v_coms : list (N * KeygenCommitment); v_shares : list (N * scalar) }.

  Record threshold_scheme := {
    ts_base : G;
    (* the field element of an index *)
    ts_pt : N -> F;
    ts_pt_zero : ts_pt 0%N = f0;
    ts_pt_sep : forall i j, (i < 256)%N -> (j < 256)%N -> i <> j -> fsub (ts_pt i) (ts_pt j) <> f0;
    (* the meaning of the library's types *)
    ts_val : scalar -> F;
    ts_com : KeygenCommitment -> list G;
    ts_key : G -> EGPublicKey;
    ts_c1 : Ciphertext -> G;
    ts_open : Ciphertext -> G -> option bytes;
    ts_point : DecryptShare -> G;
    ts_secret : tparty -> F;
    ts_view : tgen -> view;
    (* a new generator draws a polynomial with as many coefficients as the threshold *)
    ts_poly : arr 32 -> N -> list F;
    ts_poly_length : forall seed k, List.length (ts_poly seed k) = N.to_nat k;
    ts_new : forall seed i k n, (1 <= k <= n)%N -> (1 <= i <= n)%N ->
      ts_view (tg_new seed i k n) = mk_view i k n (ts_poly seed k) [] [];
    (* it commits to the coefficients *)
    ts_commitment : forall g, ts_com (tg_commitment g) = map (fun a => smul a ts_base) (v_poly (ts_view g));
    (* it takes one commitment of the right length from each index *)
    ts_receive_commitment : forall g i c, let v := ts_view g in
      (1 <= i <= v_number v)%N -> N.of_nat (List.length (ts_com c)) = v_threshold v -> ~ In i (map fst (v_coms v)) ->
      exists g', tg_receive_commitment g i c = Some g'
        /\ ts_view g' = mk_view (v_index v) (v_threshold v) (v_number v) (v_poly v) (v_coms v ++ [(i, c)]) (v_shares v);
    (* with all commitments, it gives the value of its polynomial at each index *)
    ts_polynomial_share : forall g i, let v := ts_view g in
      (1 <= i <= v_number v)%N -> N.of_nat (List.length (v_coms v)) = v_number v ->
      exists s, tg_polynomial_share g i = Some s /\ ts_val s = eval (v_poly v) (ts_pt i);
    (* it takes from each index one share that matches the commitment of this index *)
    ts_receive_share : forall g i s c, let v := ts_view g in
      NoDup (map fst (v_coms v)) -> N.of_nat (List.length (v_coms v)) = v_number v -> In (i, c) (v_coms v) -> ~ In i (map fst (v_shares v)) ->
      smul (ts_val s) ts_base = geval (ts_com c) (ts_pt (v_index v)) ->
      exists g', tg_receive_share g i s = Some g'
        /\ ts_view g' = mk_view (v_index v) (v_threshold v) (v_number v) (v_poly v) (v_coms v) (v_shares v ++ [(i, s)]);
    (* with all shares, the secret is their sum; the public key is the sum of the constant terms *)
    ts_finish : forall g, let v := ts_view g in
      N.of_nat (List.length (v_coms v)) = v_number v -> N.of_nat (List.length (v_shares v)) = v_number v ->
      exists p, tg_finish g = Some p
        /\ ts_secret p = fsum (fun x => ts_val (snd x)) (v_shares v)
        /\ tp_pubkey p = ts_key (gsum (fun x => hd g0 (ts_com (snd x))) (v_coms v));
    (* a decryption share is the first component of the ciphertext times the secret, and verifies *)
    ts_decrypt_share : forall p ct rnd, ts_point (tp_decrypt_share p ct rnd) = smul (ts_secret p) (ts_c1 ct);
    ts_share_verifies : forall p ct rnd, share_verify (tp_decrypt_share p ct rnd) (tp_proof p) ct = true;
    (* verified shares of enough different indices are interpolated at 0, all of them or some of them *)
    ts_combine : forall k ct l, (1 <= u8v k)%N -> (u8v k <= N.of_nat (List.length l))%N ->
      NoDup (map (fun x => fst (fst x)) l) -> ~ In x00 (map (fun x => fst (fst x)) l) ->
      (forall i pf sh, In (i, pf, sh) l -> share_verify sh pf ct = true) ->
      exists l', incl l' l /\ NoDup (map (fun x => fst (fst x)) l') /\ (u8v k <= N.of_nat (List.length l'))%N
        /\ threshold_decrypt k ct l
           = ts_open ct (gsum (fun x => smul (basis ts_pt f0 (map (fun y => u8v (fst (fst y))) l') (u8v (fst (fst x))))
                                             (ts_point (snd x))) l')
  }.

  (** [ct] is an ElGamal encryption of [m] for the public key [A]: with the random number [r], its
      first component is r times the base, and r times [A] opens it *)
  Definition encrypts (S : threshold_scheme) (A : G) (m : bytes) (ct : Ciphertext) : Prop :=
    exists r, ts_c1 S ct = smul r (ts_base S) /\ ts_open S ct (smul r A) = Some m.

  (** ** a key generation ceremony: the trustees of an election with their secret keys *)
  Definition people := list (Trustee * ed_secret).
  Record ceremony (T : people) (k : byte) : Prop := {
    ce_distinct : NoDup (map (fun p => tr_index (fst p)) T);
    ce_range : forall p, In p T -> (1 <= u8v (tr_index (fst p)) <= N.of_nat (List.length T))%N;
    ce_number : forall p, In p T -> uv (tr_num (fst p)) = N.of_nat (List.length T);
    ce_threshold : forall p, In p T -> tr_threshold (fst p) = k;
    ce_quorum : (1 <= u8v k <= N.of_nat (List.length T))%N
  }.
  (** what they publish first: commitments and x25519 keys *)
  Definition all_commitments (T : people) (e : Identifier) : list (byte * KeygenCommitment) :=
    map (fun p => (tr_index (fst p), keygen_commitment (fst p) (snd p) e)) T.
  Definition all_keys (T : people) (e : Identifier) : list (byte * arr 32) :=
    map (fun p => (tr_index (fst p), x25519_public (snd p) e)) T.
  (** [l] lists, for each trustee, the share it published for the trustee with index [j] *)
  Definition sent_to (T : people) (published : Trustee * ed_secret -> list (byte * bytes)) (j : byte)
    (l : list (byte * bytes)) : Prop :=
    Forall2 (fun p x => fst x = tr_index (fst p) /\ In (j, snd x) (published p)) T l.
  (** what they publish next: the encrypted shares *)
  Definition honest_shares (T : people) (e : Identifier) (published : Trustee * ed_secret -> list (byte * bytes)) : Prop :=
    forall p, In p T -> exists nonces m,
      @generate_shares C TC TrError (fst p) nonces (snd p) (all_keys T e) e (all_commitments T e) = Ok m /\ published p = sv m.
  (** then their public keys: every trustee has an entry, and the entries are what the trustees computed *)
  Definition honest_keys (T : people) (e : Identifier) (published : Trustee * ed_secret -> list (byte * bytes))
    (pks : list PublicKeyTx) : Prop :=
    (forall p, In p T -> exists x, In x pks /\ kp_trustee x = tr_index (fst p))
    /\ forall p x, In p T -> In x pks -> kp_trustee x = tr_index (fst p) ->
        exists l, sent_to T published (tr_index (fst p)) l
          /\ generate_public_key (fst p) (snd p) (all_keys T e) (all_commitments T e) l e = Ok (kp_key x, kp_proof x).
  (** after the votes: partial decryptions of a row of ciphertexts by at least [k] trustees *)
  Definition honest_partials (T : people) (k : byte) (e : Identifier) (published : Trustee * ed_secret -> list (byte * bytes))
    (row : list Ciphertext) (parts : list PartialTx) : Prop :=
    (exists Q, NoDup Q /\ incl Q (map pd_trustee parts) /\ (u8v k <= N.of_nat (List.length Q))%N)
    /\ forall x, In x parts -> exists p l, In p T /\ pd_trustee x = tr_index (fst p)
        /\ sent_to T published (tr_index (fst p)) l
        /\ Forall2 (fun ct sh => exists rnd,
             partial_decrypt rnd (fst p) (snd p) (all_keys T e) (all_commitments T e) l ct e = Ok sh) row (pd_shares x).

  (** ** the rest of the election *)
  (** the library encrypts *)
  Definition encrypting (S : threshold_scheme) {R} (eg_encrypt : EGPublicKey -> R -> bytes -> Ciphertext * R) : Prop :=
    forall A r m, encrypts S A m (fst (eg_encrypt (ts_key S A) r m)).
  (** an accepted shuffle proof shows that the rows are rearranged and re-encrypted *)
  Definition reencrypting (S : threshold_scheme) : Prop :=
    forall seed n ins outs A pf, shuffle_verify seed n ins outs (ts_key S A) pf = true ->
    exists ins', Permutation ins ins'
      /\ Forall2 (Forall2 (fun a b => forall m, encrypts S A m a -> encrypts S A m b)) ins' outs.
  (** rows obtained from others by a chain of verified mixes *)
  Inductive mixed (key : EGPublicKey) : list (list Ciphertext) -> list (list Ciphertext) -> Prop :=
  | mixed_none : forall rows, mixed key rows rows
  | mixed_more : forall rows ins outs seed n pf, mixed key rows ins ->
      shuffle_verify seed n ins outs key pf = true -> mixed key rows outs.
End Spec.
Arguments threshold_scheme {C TC} K M.
