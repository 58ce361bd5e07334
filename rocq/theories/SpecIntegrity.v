(** * SpecIntegrity: what a published decryption must show, whoever posted what. *)
From Verif Require Import Base Utf8 Cbor Crypto Ident Types Trustee Lagrange SpecStore SpecValid SpecThreshold.
Open Scope list_scope.

Section Spec.
  Context {C : Crypto} {TC : TCrypto} {K : Fld} {M : Mdl}.

  (** Laws of the proofs of cryptid.  A key proof is about a public point,
      for a finished party the secret times the base; an accepted decryption
      share is the first component of the ciphertext times the secret behind that point; a successful
      threshold decryption has interpolated accepted shares of enough different indices. *)
  Record sound_proofs (S : threshold_scheme K M) := {
    sp_public : PubkeyProof -> G;
    sp_honest : forall p, sp_public (tp_proof p) = smul (ts_secret S p) (ts_base S);
    sp_share : forall sh pf ct, share_verify sh pf ct = true ->
      exists x, sp_public pf = smul x (ts_base S) /\ ts_point S sh = smul x (ts_c1 S ct);
    sp_combine : forall k ct l m, threshold_decrypt k ct l = Some m ->
      exists l', incl l' l /\ NoDup (map (fun x => fst (fst x)) l') /\ (u8v k <= N.of_nat (List.length l'))%N
        /\ (forall i pf sh, In (i, pf, sh) l' -> share_verify sh pf ct = true)
        /\ ts_open S ct (gsum (fun x => smul (basis (ts_pt S) f0 (map (fun y => u8v (fst (fst y))) l') (u8v (fst (fst x))))
                                             (ts_point S (snd x))) l') = Some m
  }.

  (** In the recorded transactions [L], the keys of election [e] belong to the polynomial [P]: it has
      at most as many coefficients as the threshold, the public keys listed for the election are its values, and the
      encryption key is its value at zero (all times the base point). *)
  Record keyed (S : threshold_scheme K M) (SP : sound_proofs S) (L : list STx) (e : Identifier) (el : ElectionTx) (P : list F) : Prop := {
    kd_election : at_id L e (XElection el);
    kd_threshold : (N.of_nat (List.length P) <= u8v (el_threshold el))%N;
    kd_positive : (1 <= u8v (el_threshold el))%N;
    kd_proofs : forall y x, In y L -> in_range e TKeyGenPublicKey y -> s_tx y = XPublicKey x ->
      sp_public S SP (kp_proof x) = smul (eval P (ts_pt S (u8v (kp_trustee x)))) (ts_base S);
    kd_key : forall k, at_id L (slot0 e TEncryptionKey) (XEncryptionKey k) ->
      ek_key k = ts_key S (smul (eval P f0) (ts_base S))
  }.
  Definition key_point (S : threshold_scheme K M) (P : list F) : G := smul (eval P f0) (ts_base S).

  (** the key proof of [pk] belongs to the recorded commitments of the key generation: its point is
      the value, at the index of the trustee, of the polynomial they all commit to *)
  Definition fits_commitments (S : threshold_scheme K M) (SP : sound_proofs S) (cs : list CommitmentTx) (pk : PublicKeyTx) : Prop :=
    sp_public S SP (kp_proof pk) = gsum (fun c => geval (ts_com S (kc_commitment c)) (ts_pt S (u8v (kp_trustee pk)))) cs.

  (** the row of ciphertexts [row] is an encryption of the selections [vote] *)
  Definition row_of (S : threshold_scheme K M) (P : list F) (encode : Selection -> bytes)
    (vote : list Selection) (row : list Ciphertext) : Prop :=
    Forall2 (fun s ct => encrypts S (key_point S P) (encode s) ct) vote row.
  (** the rows obtained by the mix [m] stand for [shown], those cast in its votes for [cast] *)
  Definition recorded_votes (L : list STx) (ids : list Identifier) (vs : list VoteTx) : Prop :=
    Forall2 (fun i v => at_id L i (XVote v)) ids vs.
End Spec.
Arguments sound_proofs {C TC K M} S.
