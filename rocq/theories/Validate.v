(** * Validate: signing, signature checks and [validate_tx] of all ten transaction types.

    Check order, error values and panics are those of the source.  [dbg] is the build mode:
    [true] = overflow checks on (debug), [false] = release. *)
From Verif Require Import Base Utf8 Cbor Ident BuildId Crypto Types Serde Store Prost.
From Coq Require Import Strings.String.
Open Scope list_scope.

(** [ValidationError], error.rs 64-202 (payloads of foreign error types dropped) *)
Inductive VError :=
| IdentifierBadComposition
| AuthorityPublicKeyMismatch
| TrusteePublicKeyMismatch (i : byte)
| MismatchedEncryptionKey (i : byte)
| InvalidTrusteeThreshold
| InvalidAuthThreshold
| BallotDoesNotExist
| AuthDoesNotExist
| TrusteeDoesNotExist (i : byte)
| MissingKeyGenPublicKeyTransaction (i : byte)
| WrongNumberOfPublicKeyTransactions
| TrusteeShareMissing (i : byte)
| WrongNumberOfShares
| AuthFailed
| AuthSignatureVerificationFailed
| EncryptionKeyTransactionDoesNotExist
| VoteDecryptionFailed
| VoteDecryptionMismatch
| NotEnoughShares (need have : nat)
| TransactionNotFound (nf : NotFound)
| MisingVotingEndTransaction
| SignatureError
| PartialDecryptionProofFailed
| MismatchedTransactionType
| VotingHasEnded
| ShuffleVerificationFailed
| NoMixnetConfig
| OutOfOrderMix
| MissingPrevMixTransaction
| InvalidPrevMixTransaction
| MixVoteIdsNotSorted
| MixWrongNumberOfVotes
| MixVotesNotAccountedFor
| InvalidUpstreamID
| InvalidUpstreamIndex
| InvalidUpstreamContestIndex
| VotedInWrongContest
| VoteAnonymousKeyCollision
| VoteDecodingError.

Section Validate.
  Context {C : Crypto}.
  Context (dbg : bool).

  (** ** Signing *)
  Inductive SignError := MismatchedPublicKeys.
  (** [Signed::sign], transaction.rs 252-269 *)
  Definition sign (sk : ed_secret) (t : Tx) : res SignError STx :=
    match tx_public t with
    | Some p => if pk_eqb (ed_public sk) p then Ok (mk_stx t (ed_sign sk (tx_bytes t)))
                else Err MismatchedPublicKeys
    | None => Ok (mk_stx t (ed_sign sk (tx_bytes t)))
    end.
  (** [Signed::verify_signature], transaction.rs 272-280 *)
  Definition verify_signature (x : STx) : res VError unit :=
    match tx_public (s_tx x) with
    | Some p => if ed_verify p (tx_bytes (s_tx x)) (s_sig x) then Ok tt else Err SignatureError
    | None => Ok tt
    end.

  (** ** Helpers of [ElectionTransaction], election.rs 81-120 *)
  Definition get_authenticator (e : ElectionTx) (u : uuid) : option Authenticator :=
    find (fun a => arr_eqb u (au_id a)) (el_authenticators e).
  Definition get_trustee (e : ElectionTx) (i : byte) : option Trustee :=
    find (fun t => Byte.eqb i (tr_index t)) (el_trustees e).
  Definition get_ballot (e : ElectionTx) (b : rstring) : option Ballot :=
    find (fun x => rs_eqb (bal_id x) b) (el_ballots e).
  Definition get_full_trustees (e : ElectionTx) : list Trustee :=
    map (fun t => mk_trustee (tr_public_key t) (tr_index t)
                    (u_of 8 (N.of_nat (List.length (el_trustees e)))) (el_threshold e))
        (el_trustees e).

  (** the store lookups with [?] *)
  Definition q {A} (m : res NotFound A) : res VError A := map_err TransactionNotFound m.
  Definition election_of (s : Store) (i : Identifier) : res VError ElectionTx :=
    let! p := q (get_election s i) in Ok (fst p).

  (** the loop "trustee_exists", keygen.rs 114-126 and elsewhere *)
  Definition trustee_exists (e : ElectionTx) (i : byte) (k : PublicKey) : bool :=
    existsb (fun t => Byte.eqb (tr_index t) i && pk_eqb (tr_public_key t) k) (el_trustees e).

  (** ** Election, election.rs 145-175 *)
  Definition validate_election (t : ElectionTx) : res VError unit :=
    fail_if (negb (id_eqb (election_build_id (id_election (el_id t))) (el_id t))) IdentifierBadComposition ;;
    fail_if (N.of_nat (List.length (el_trustees t)) <? u8v (el_threshold t))%N InvalidTrusteeThreshold ;;
    fail_if (u8v (u8_of (N.of_nat (List.length (el_authenticators t)))) <? u8v (el_auth_threshold t))%N
            InvalidAuthThreshold.

  (** ** Key generation *)
  (** keygen.rs 110-130 *)
  Definition validate_commitment (s : Store) (t : CommitmentTx) : res VError unit :=
    let! e := election_of s (kc_election t) in
    fail_if (negb (trustee_exists e (kc_trustee t) (kc_public t))) (TrusteeDoesNotExist (kc_trustee t)).

  (** keygen.rs 179-212 *)
  Definition validate_share (s : Store) (t : ShareTx) : res VError unit :=
    let! e := election_of s (ks_election t) in
    fail_if (negb (trustee_exists e (ks_trustee t) (ks_public t))) (TrusteeDoesNotExist (ks_trustee t)) ;;
    fail_if (negb (Nat.eqb (List.length (sv (ks_shares t))) (List.length (el_trustees e)))) WrongNumberOfShares ;;
    for_each (el_trustees e) (fun tr =>
      fail_if (negb (mem_key Byte.eqb (tr_index tr) (map fst (sv (ks_shares t)))))
              (TrusteeShareMissing (ks_trustee t))).

  (** keygen.rs 266-284 *)
  Definition validate_pubkey (s : Store) (t : PublicKeyTx) : res VError unit :=
    let! e := election_of s (kp_election t) in
    fail_if (negb (trustee_exists e (kp_trustee t) (kp_public t))) (TrusteeDoesNotExist (kp_trustee t)).

  (** keygen.rs 330-378 *)
  Definition validate_enckey (s : Store) (t : EncryptionKeyTx) : res VError unit :=
    let! e := election_of s (ek_election t) in
    fail_if (negb (pk_eqb (ek_authority t) (el_authority e))) AuthorityPublicKeyMismatch ;;
    let! txs := lift (get_multiple s (ek_election t) TKeyGenPublicKey) in
    let! pks := map_res (into_typed as_pubkey) txs in
    fail_if (negb (Nat.eqb (List.length pks) (List.length (el_trustees e)))) WrongNumberOfPublicKeyTransactions ;;
    for_each (el_trustees e) (fun tr =>
      fail_if (negb (existsb (fun p => Byte.eqb (kp_trustee p) (tr_index tr)
                                       && pk_eqb (kp_public p) (tr_public_key tr)) pks))
              (MissingKeyGenPublicKeyTransaction (tr_index tr))) ;;
    for_each pks (fun p =>
      fail_if (negb (egpk_eqb (kp_key p) (ek_key t))) (MismatchedEncryptionKey (kp_trustee p))).

  (** ** Authentication, authn.rs 100-124, 155-168 *)
  (** [AuthPackage::pack]: CBOR map; the anonymous key is serialised by ed25519-dalek's own serde
      implementation (a byte string), the identifier as text *)
  Definition auth_pack (e : Identifier) (ballot : rstring) (k : PublicKey) : bytes :=
    cenc (CMap [(CText (lit "election_id"), ser_id e); (CText (lit "ballot_id"), CText ballot);
                (CText (lit "anonymous_key"), CBytes (arr_l (sv k)))]).
  Definition auth_digest {E} (pk : AuthPublicKey) (e : Identifier) (ballot : rstring) (k : PublicKey)
    : res E bytes := or_panic (rsa_hash pk (auth_pack e ballot k)) PExpect.
  Definition auth_verify (a : Authenticator) (e : Identifier) (ballot : rstring) (k : PublicKey) (sig : bytes)
    : res VError unit :=
    let! pk := ok_or (assoc rs_eqb ballot (sv (au_keys a))) BallotDoesNotExist in
    let! d := auth_digest pk e ballot k in
    fail_if (negb (rsa_verify pk d sig)) AuthSignatureVerificationFailed.

  (** ** Vote, vote.rs 91-153 *)
  Definition validate_vote (s : Store) (t : VoteTx) : res VError unit :=
    fail_if (negb (id_eqb (vote_build_id (vt_election t) (sv (vt_key t))) (vt_id t))) IdentifierBadComposition ;;
    let! e := election_of s (vt_election t) in
    let mask := firstn 10 (arr_l (sv (vt_key t))) in
    let! a := id_start (vt_election t) TVote (Some mask) in
    let! b := id_start (vt_election t) TVote (Some mask) in
    let! l := lift (st_range s a b) in
    fail_if (Nat.ltb 0 (List.length l)) VoteAnonymousKeyCollision ;;
    let! ek := lift (st_get s (id_new (vt_election t) TEncryptionKey None)) in
    fail_if (match ek with None => true | Some _ => false end) EncryptionKeyTransactionDoesNotExist ;;
    let! ve := lift (st_get s (id_new (vt_election t) TVotingEnd None)) in
    fail_if (match ve with None => false | Some _ => true end) VotingHasEnded ;;
    for_each (vt_authn t) (fun an =>
      let! a := ok_or (get_authenticator e (an_authenticator an)) AuthDoesNotExist in
      map_err (fun _ => AuthFailed)
        (auth_verify a (el_id e) (vt_ballot t) (vt_key t) (an_signature an))) ;;
    let! b := ok_or (get_ballot e (vt_ballot t)) BallotDoesNotExist in
    for_each (vt_votes t) (fun v =>
      fail_if (negb (existsb (u_eqb (ev_contest v)) (bal_contests b))) VotedInWrongContest).

  (** ** VotingEnd, voting_end.rs 47-58 *)
  Definition validate_votingend (s : Store) (t : VotingEndTx) : res VError unit :=
    let! e := election_of s (ve_election t) in
    fail_if (negb (pk_eqb (ve_authority t) (el_authority e))) AuthorityPublicKeyMismatch.

  (** ** Mix, mix.rs 134-264 *)
  (** [is_sorted]: every element is <= the next *)
  Fixpoint is_sorted (l : list Identifier) : bool :=
    match l with
    | a :: (b :: _) as l' => (match id_cmp a b with Gt => false | _ => true end) && is_sorted l'
    | _ => true
    end.
  (** [has_unique_elements], mix.rs 330-339 *)
  Fixpoint has_unique (l : list Identifier) : bool :=
    match l with [] => true | a :: l' => negb (existsb (id_eqb a) l') && has_unique l' end.
  Fixpoint ids_eqb (a b : list Identifier) : bool :=
    match a, b with
    | [], [] => true | x :: a', y :: b' => id_eqb x y && ids_eqb a' b' | _, _ => false end.
  (** the rows of one contest, in vote order (mix.rs 226-238) *)
  Definition contest_rows (c : u32) (v : VoteTx) : list (list Ciphertext) :=
    map ev_selections (filter (fun ev => u_eqb (ev_contest ev) c) (vt_votes v)).
  (** [verify_mix], mix.rs 293-315 *)
  Definition verify_mix (ins outs : list (list Ciphertext)) (key : EGPublicKey) (proof : ShuffleProof)
    (trustee mix : byte) (contest batch : u32) : res VError unit :=
    fail_if (negb (shuffle_verify (mix_seed contest batch mix trustee)
                     (N.of_nat (List.length ins)) ins outs key proof)) ShuffleVerificationFailed.

  (** the two branches computing the input of the shuffle, mix.rs 176-241 *)
  Definition mix_input_prev (s : Store) (t : MixTx) (p : Identifier) : res VError (list (list Ciphertext)) :=
    let! o := lift (st_get s p) in
    let! x := ok_or o MissingPrevMixTransaction in
    let! pm := into_typed as_mix x in
    let! nx := u8_add dbg (mx_index pm) x01 in
    fail_if (negb (Byte.eqb (mx_index t) nx && id_eqb (mx_election t) (mx_election pm)
                   && u_eqb (mx_contest t) (mx_contest pm) && u_eqb (mx_batch t) (mx_batch pm)
                   && ids_eqb (mx_votes t) (mx_votes pm))) InvalidPrevMixTransaction ;;
    Ok (mx_out pm).
  Definition mix_input_first (s : Store) (t : MixTx) : res VError (list (list Ciphertext)) :=
    fail_if (negb (Byte.eqb (mx_index t) x00)) OutOfOrderMix ;;
    fail_if (negb (is_sorted (mx_votes t))) MixVoteIdsNotSorted ;;
    fail_if (negb (has_unique (mx_votes t))) MixVoteIdsNotSorted ;;
    let! a := id_start (mx_election t) TVote None in
    let! b := id_end (mx_election t) TVote None in
    let! votes := lift (st_range s a b) in
    fail_if (negb (Nat.eqb (List.length votes) (List.length (mx_votes t)))) MixWrongNumberOfVotes ;;
    fail_if (negb (ids_eqb (mx_votes t) (map s_id votes))) MixVotesNotAccountedFor ;;
    let! vs := map_res (into_typed as_vote) votes in
    Ok (flat_map (contest_rows (mx_contest t)) vs).
  Definition mix_input (s : Store) (t : MixTx) : res VError (list (list Ciphertext)) :=
    match mx_prev t with Some p => mix_input_prev s t p | None => mix_input_first s t end.

  Definition validate_mix (s : Store) (t : MixTx) : res VError unit :=
    fail_if (negb (id_eqb (mix_build_id (mx_election t) (mx_contest t) (mx_batch t) (mx_index t) (mx_trustee t))
                          (mx_id t))) IdentifierBadComposition ;;
    let! e := election_of s (mx_election t) in
    fail_if (match el_mix_config e with None => true | Some _ => false end) NoMixnetConfig ;;
    fail_if (negb (trustee_exists e (mx_trustee t) (mx_public t))) (TrusteeDoesNotExist (mx_trustee t)) ;;
    let! pred := u8_sub dbg (mx_trustee t) x01 in
    fail_if (negb (Byte.eqb (mx_index t) pred)) OutOfOrderMix ;;
    fail_if (negb (Nat.eqb (List.length (mx_out t)) (List.length (mx_votes t)))) MixWrongNumberOfVotes ;;
    let! ins := mix_input s t in
    let! o := lift (st_get s (id_new (mx_election t) TEncryptionKey None)) in
    let! x := ok_or o EncryptionKeyTransactionDoesNotExist in
    let! k := into_typed as_enckey x in
    verify_mix ins (mx_out t) (ek_key k) (mx_proof t) (mx_trustee t) (mx_index t) (mx_contest t) (mx_batch t).

  (** ** Decryption *)
  (** [encrypted_vote_from_upstream_tx], decryption.rs 390-441 *)
  Definition encrypted_vote (s : Store) (up : Identifier) (idx : u16) (contest : u32) (mc : option MixConfig)
    : res VError (list Ciphertext) :=
    match id_type up with
    | TVote =>
        fail_if (match mc with Some _ => true | None => false end) InvalidUpstreamID ;;
        fail_if (negb (uv idx =? 0)%N) InvalidUpstreamIndex ;;
        let! p := q (get_vote s up) in
        match find (fun ev => u_eqb (ev_contest ev) contest) (vt_votes (fst p)) with
        | Some ev => Ok (ev_selections ev)
        | None => Err InvalidUpstreamContestIndex
        end
    | TMix =>
        let! p := q (get_mix s up) in
        let m := fst p in
        fail_if (negb (u_eqb (mx_contest m) contest)) InvalidUpstreamContestIndex ;;
        fail_if (match mc with Some _ => false | None => true end) InvalidUpstreamID ;;
        fail_if (uv (u_of 2 (N.of_nat (List.length (mx_out m)))) <=? uv idx)%N InvalidUpstreamIndex ;;
        or_panic (nth_error (mx_out m) (N.to_nat (uv idx))) PIndex      (* swap_remove *)
    | _ => Err InvalidUpstreamID
    end.

  (** PartialDecryption, decryption.rs 102-172 *)
  Definition validate_partial (s : Store) (t : PartialTx) : res VError unit :=
    let! e := election_of s (pd_election t) in
    let! tr := ok_or (find (fun x => Byte.eqb (tr_index x) (pd_trustee t) && pk_eqb (tr_public_key x) (pd_public t))
                           (get_full_trustees e)) (TrusteeDoesNotExist (pd_trustee t)) in
    fail_if (negb (id_eqb (partial_build_id (pd_election t) (pd_upstream t) (pd_contest t) (pd_index t) (tr_index tr))
                          (pd_id t))) IdentifierBadComposition ;;
    let! ve := lift (st_get s (id_new (pd_election t) TVotingEnd None)) in
    fail_if (match ve with None => true | Some _ => false end) MisingVotingEndTransaction ;;
    let! cts := encrypted_vote s (pd_upstream t) (pd_index t) (pd_contest t) (el_mix_config e) in
    let! pk := q (get_keygen_public_key s (pubkey_build_id (pd_election t) (pd_trustee t))) in
    let pk := fst pk in
    fail_if (negb (Byte.eqb (pd_trustee t) (kp_trustee pk)) || negb (pk_eqb (pd_public t) (kp_public pk)))
            (TrusteePublicKeyMismatch (pd_trustee t)) ;;
    fail_if (negb (Nat.eqb (List.length cts) (List.length (pd_shares t)))) PartialDecryptionProofFailed ;;
    for_each (combine (pd_shares t) cts) (fun '(sh, ct) =>
      fail_if (negb (share_verify sh (kp_proof pk) ct)) PartialDecryptionProofFailed).

  (** [HashMap] built from (index, value) pairs: the last one wins *)
  Definition last_by {A} (idx : A -> byte) (l : list A) (i : byte) : option A :=
    find (fun a => Byte.eqb (idx a) i) (rev l).

  (** [decrypt_vote], decryption.rs 340-386 *)
  Definition decrypt_shares (i : nat) (trustees : list Trustee) (pubkeys : list PublicKeyTx)
    (partials : list PartialTx) : res VError (list (byte * PubkeyProof * DecryptShare)) :=
    let! l := map_res (fun tr =>
      match last_by pd_trustee partials (tr_index tr) with
      | Some p => match last_by kp_trustee pubkeys (tr_index tr) with
                  | Some k => let! sh := or_panic (nth_error (pd_shares p) i) PIndex in
                              Ok [(tr_index tr, kp_proof k, sh)]
                  | None => Ok []
                  end
      | None => Ok []
      end) trustees in
    Ok (List.concat l).
  Fixpoint decrypt_from (i : nat) (cts : list Ciphertext) (threshold : byte) (trustees : list Trustee)
    (pubkeys : list PublicKeyTx) (partials : list PartialTx) : res VError (list Selection) :=
    match cts with
    | [] => Ok []
    | ct :: cts' =>
        let! shares := decrypt_shares i trustees pubkeys partials in
        let! raw := ok_or (threshold_decrypt threshold ct shares) VoteDecryptionFailed in
        let! sel := ok_or (sel_decode raw) VoteDecodingError in
        let! rest := decrypt_from (S i) cts' threshold trustees pubkeys partials in
        Ok (sel :: rest)
    end.
  Definition decrypt_vote := decrypt_from 0.

  Definition sel_eqb (a b : Selection) : bool :=
    Bool.eqb (sel_write_in a) (sel_write_in b) && u_eqb (sel_score a) (sel_score b)
    && rs_eqb (sel_text a) (sel_text b).
  Fixpoint sels_eqb (a b : list Selection) : bool :=
    match a, b with
    | [], [] => true | x :: a', y :: b' => sel_eqb x y && sels_eqb a' b' | _, _ => false end.

  (** Decryption, decryption.rs 259-336 *)
  Definition validate_decryption (s : Store) (t : DecryptionTx) : res VError unit :=
    fail_if (negb (id_eqb (decryption_build_id (dc_election t) (dc_upstream t) (dc_contest t) (dc_index t)) (dc_id t)))
            IdentifierBadComposition ;;
    let! e := election_of s (dc_election t) in
    let! cts := encrypted_vote s (dc_upstream t) (dc_index t) (dc_contest t) (el_mix_config e) in
    let! txs := lift (get_multiple s (dc_election t) TKeyGenPublicKey) in
    let! pks := map_res (into_typed as_pubkey) txs in
    let! partials := map_res (fun i =>
      let! tr := ok_or (get_trustee e i) (TrusteeDoesNotExist i) in
      let! p := q (get_partial_decryption s
                     (partial_build_id (dc_election t) (dc_upstream t) (dc_contest t) (dc_index t) (tr_index tr))) in
      Ok (fst p)) (dc_trustees t) in
    let need := N.to_nat (u8v (el_threshold e)) in
    fail_if (Nat.ltb (List.length partials) need) (NotEnoughShares need (List.length partials)) ;;
    let! sels := decrypt_vote cts (el_threshold e) (el_trustees e) pks partials in
    fail_if (negb (sels_eqb sels (dc_vote t))) VoteDecryptionMismatch.

  (** ** All types *)
  Definition validate_tx (s : Store) (t : Tx) : res VError unit :=
    match t with
    | XElection t => validate_election t
    | XCommitment t => validate_commitment s t
    | XShare t => validate_share s t
    | XPublicKey t => validate_pubkey s t
    | XEncryptionKey t => validate_enckey s t
    | XVote t => validate_vote s t
    | XVotingEnd t => validate_votingend s t
    | XMix t => validate_mix s t
    | XPartial t => validate_partial s t
    | XDecryption t => validate_decryption s t
    end.

  (** [SignedTransaction::validate] with [Signed::validate], transaction.rs 153-169, 293-298 *)
  Definition validate (s : Store) (x : STx) : res VError unit :=
    fail_if (negb (tt_eqb (id_type (s_id x)) (s_type x))) MismatchedTransactionType ;;
    verify_signature x ;;
    validate_tx s (s_tx x).
End Validate.
