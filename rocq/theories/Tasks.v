(** * Tasks: follow-up transactions of a node (cryptoballot_server/src/tasks.rs).

    [sk] is the node's secret key ([crate::secret_key], main.rs 19-30); [r] supplies the random values.
    [dbg]: overflow checks on. *)
From Verif Require Import Base Utf8 Cbor Ident BuildId Crypto Types Serde Store Prost Validate Trustee.
Open Scope list_scope.

Section Tasks.
  Context {C : Crypto} {TC : TCrypto}.
  Context (dbg : bool).

  (** cryptoballot::Error, error.rs 7-62, as far as it occurs *)
  Inductive TaskError :=
  | TSign (e : SignError)
  | TNotFound (n : NotFound)
  | TTrustee (e : TrError)
  | TValidation (e : VError)
  | TShuffle
  | TCannotFindContest (c : u32)
  | TUnexpectedType.

  (** random values: nonce of the n-th share; randomness of share j of partial i; of the i-th mix *)
  Record Rnd := mk_rnd { r_nonce : nat -> arr 12; r_share : nat -> nat -> bytes; r_mix : nat -> bytes }.
  Context (sk : ed_secret) (r : Rnd).
  Definition node_key : PublicKey := ed_public sk.

  Definition tsign (t : Tx) : res TaskError STx := map_err TSign (sign sk t).
  Definition one (t : Tx) : res TaskError (list STx) := let! x := tsign t in Ok [x].
  (** [store.get_election(id)?.tx] *)
  Definition t_election (s : Store) (i : Identifier) : res TaskError ElectionTx :=
    let! p := map_err TNotFound (get_election s i) in Ok (fst p).
  (** [store.get_multiple(..).into_iter().map(|tx| tx.into()).collect()] *)
  Definition t_multiple {A} (proj : Tx -> option A) (s : Store) (e : Identifier) (ty : TxType)
    : res TaskError (list A) :=
    let! l := lift (get_multiple s e ty) in map_res (into_typed proj) l.

  (** [trustee_from_election], 598-608 *)
  Definition trustee_from_election (el : ElectionTx) (k : PublicKey) : option Trustee :=
    find (fun t => pk_eqb (tr_public_key t) k) (get_full_trustees el).

  (** [process_election], 37-60 *)
  Definition process_election (el : ElectionTx) : res TaskError (list STx) :=
    match trustee_from_election el node_key with
    | Some t =>
        one (XCommitment (mk_commitment (commitment_build_id (el_id el) (tr_index t)) (el_id el) (tr_index t)
               (tr_public_key t) (x25519_public sk (el_id el)) (keygen_commitment t sk (el_id el))))
    | None => Ok []
    end.

  Definition commitments_of (l : list CommitmentTx) : list (byte * KeygenCommitment) :=
    map (fun t => (kc_trustee t, kc_commitment t)) l.
  Definition x_keys_of (l : list CommitmentTx) : list (byte * arr 32) :=
    map (fun t => (kc_trustee t, kc_x25519 t)) l.

  (** [process_keygen_commitment], 63-113 *)
  Definition process_keygen_commitment (s : Store) (c : CommitmentTx) : res TaskError (list STx) :=
    let! el := t_election s (kc_election c) in
    match trustee_from_election el node_key with
    | Some t =>
        let! cs := t_multiple as_commitment s (el_id el) TKeyGenCommitment in
        if Nat.eqb (List.length cs) (List.length (el_trustees el)) then
          let! shares := generate_shares t (r_nonce r) sk (x_keys_of cs) (el_id el) (commitments_of cs) in
          one (XShare (mk_share (share_build_id (el_id el) (tr_index t)) (el_id el) (tr_index t) (tr_public_key t) shares))
        else Ok []
    | None => Ok []
    end.

  (** [tx.shares.get(&trustee.index).unwrap().clone()] for each share transaction *)
  Definition shares_to {E} (t : Trustee) (l : list ShareTx) : res E (list (byte * bytes)) :=
    map_res (fun x => let! b := or_panic (assoc Byte.eqb (tr_index t) (sv (ks_shares x))) PUnwrap in
                      Ok (ks_trustee x, b)) l.

  (** [process_keygen_share], 116-185 *)
  Definition process_keygen_share (s : Store) (sh : ShareTx) : res TaskError (list STx) :=
    let! el := t_election s (ks_election sh) in
    match trustee_from_election el node_key with
    | Some t =>
        let! shs := t_multiple as_share s (el_id el) TKeyGenShare in
        if negb (Nat.eqb (List.length shs) (List.length (el_trustees el))) then Ok [] else
        let! cs := t_multiple as_commitment s (el_id el) TKeyGenCommitment in
        let! shares := shares_to t shs in
        let! kp := map_err TTrustee
                     (generate_public_key t sk (x_keys_of cs) (commitments_of cs) shares (el_id el)) in
        one (XPublicKey (mk_pubkey (pubkey_build_id (el_id el) (tr_index t)) (el_id el) (tr_index t)
               (tr_public_key t) (fst kp) (snd kp)))
    | None => Ok []
    end.

  (** [process_keygen_public_key], 188-219 *)
  Definition process_keygen_public_key (s : Store) (p : PublicKeyTx) : res TaskError (list STx) :=
    let! el := t_election s (kp_election p) in
    if pk_eqb (el_authority el) node_key then
      let! pks := t_multiple as_pubkey s (el_id el) TKeyGenPublicKey in
      if Nat.eqb (List.length (el_trustees el)) (List.length pks)
      then one (XEncryptionKey (mk_enckey (enckey_build_id (el_id el)) (el_id el) (el_authority el) (kp_key p)))
      else Ok []
    else Ok [].

  (** [produce_partials], 479-596.  One element of the list: upstream identifier, row index, contest, ciphertexts. *)
  Definition source := (Identifier * u16 * u32 * list Ciphertext)%type.
  Fixpoint rows_from (n : N) (up : Identifier) (contest : u32) (rows : list (list Ciphertext)) : list source :=
    match rows with
    | [] => []
    | row :: rows' => (up, u_of 2 n, contest, row) :: rows_from (N.succ n) up contest rows'
    end.
  Definition vote_sources (v : VoteTx) : list source :=
    map (fun ev => (vt_id v, u_of 2 0, ev_contest ev, ev_selections ev)) (vt_votes v).
  (** the inner loop over the ciphertexts of one row *)
  Fixpoint partial_shares (i j : nat) (t : Trustee) keys commitments shares (e : Identifier) (cts : list Ciphertext)
    : res TaskError (list DecryptShare) :=
    match cts with
    | [] => Ok []
    | ct :: cts' =>
        let! d := map_err TTrustee (partial_decrypt (r_share r i j) t sk keys commitments shares ct e) in
        let! ds := partial_shares i (S j) t keys commitments shares e cts' in Ok (d :: ds)
    end.
  Fixpoint partials_from (i : nat) (t : Trustee) keys commitments shares (e : Identifier) (l : list source)
    : res TaskError (list STx) :=
    match l with
    | [] => Ok []
    | (up, idx, contest, cts) :: l' =>
        let! ds := partial_shares i 0 t keys commitments shares e cts in
        let! x := tsign (XPartial (mk_partial (partial_build_id e up contest idx (tr_index t)) e up idx contest
                                     (tr_index t) node_key ds)) in
        let! xs := partials_from (S i) t keys commitments shares e l' in Ok (x :: xs)
    end.
  Definition produce_partials (s : Store) (el : ElectionTx) (t : Trustee) (contest : u32) (m : option MixTx)
    : res TaskError (list STx) :=
    let! shs := t_multiple as_share s (el_id el) TKeyGenShare in
    let! cs := t_multiple as_commitment s (el_id el) TKeyGenCommitment in
    let! shares := shares_to t shs in
    match m with
    | Some m =>
        partials_from 0 t (x_keys_of cs) (commitments_of cs) shares (el_id el) (rows_from 0 (mx_id m) contest (mx_out m))
    | None =>
        (* the source converts each vote inside the loop; an entry that is not a vote panics there *)
        let! vs := t_multiple as_vote s (el_id el) TVote in
        partials_from 0 t (x_keys_of cs) (commitments_of cs) shares (el_id el) (flat_map vote_sources vs)
    end.

  (** 253-265: the map from contest to (vote identifier, selections), in order of first insertion.  The
      iteration order of the Rust [HashMap] is unspecified; only the set of results is claimed. *)
  Fixpoint push {A} (c : u32) (x : A) (m : list (u32 * list A)) : list (u32 * list A) :=
    match m with
    | [] => [(c, [x])]
    | (c', l) :: m' => if u_eqb c c' then (c', l ++ [x]) :: m' else (c', l) :: push c x m'
    end.
  Definition contest_votes (vs : list VoteTx) : list (u32 * list (Identifier * list Ciphertext)) :=
    fold_left (fun m v =>
      fold_left (fun m ev => push (ev_contest ev) (vt_id v, ev_selections ev) m) (vt_votes v) m) vs [].

  (** [store.get_transaction(EncryptionKeyTransaction::build_id(..)).unwrap().into()] *)
  Definition t_enckey (s : Store) (e : Identifier) : res TaskError EncryptionKeyTx :=
    let! o := lift (st_get s (enckey_build_id e)) in
    let! x := or_panic o PUnwrap in into_typed as_enckey x.

  (** the loop 269-301 *)
  Fixpoint first_mixes (n : nat) (el : ElectionTx) (t : Trustee) (key : EGPublicKey)
    (l : list (u32 * list (Identifier * list Ciphertext))) : res TaskError (list STx) :=
    match l with
    | [] => Ok []
    | (c, votes) :: l' =>
        let! mp := ok_or (mix (r_mix r n) (map snd votes) key (tr_index t) x00 c (u_of 4 0)) TShuffle in
        let! x := tsign (XMix (mk_mix (mix_build_id (el_id el) c (u_of 4 0) x00 (tr_index t)) (el_id el) None
                                 (tr_index t) (tr_public_key t) x00 c (u_of 4 0) (map fst votes) (fst mp) (snd mp))) in
        let! xs := first_mixes (S n) el t key l' in Ok (x :: xs)
    end.

  (** [process_voting_end], 222-314.  Without mixnet the loop over the contests returns in its first
      iteration, whatever the contest. *)
  Definition process_voting_end (s : Store) (ve : VotingEndTx) : res TaskError (list STx) :=
    let! el := t_election s (ve_election ve) in
    match trustee_from_election el node_key with
    | Some t =>
        match el_mix_config el with
        | Some _ =>
            if Byte.eqb (tr_index t) x01 then
              let! k := t_enckey s (el_id el) in
              let! vs := t_multiple as_vote s (el_id el) TVote in
              first_mixes 0 el t (ek_key k) (contest_votes vs)
            else Ok []
        | None =>
            match el_contests el with
            | [] => Ok []
            | c :: _ => produce_partials s el t (cont_index c) None
            end
        end
    | None => Ok []
    end.

  (** [process_mix], 317-385 *)
  Definition process_mix (s : Store) (m : MixTx) : res TaskError (list STx) :=
    let! el := t_election s (mx_election m) in
    match trustee_from_election el node_key with
    | Some t =>
        match el_mix_config el with
        | Some _ =>
            let! next := u8_add dbg (mx_index m) x01 in
            if Byte.eqb (el_threshold el) next then produce_partials s el t (mx_contest m) (Some m) else
            let! turn := u8_add dbg (mx_index m) x02 in
            if Byte.eqb (tr_index t) turn then
              let! k := t_enckey s (el_id el) in
              let! mp := ok_or (mix (r_mix r 0) (mx_out m) (ek_key k) (tr_index t) next (mx_contest m) (u_of 4 0)) TShuffle in
              one (XMix (mk_mix (mix_build_id (el_id el) (mx_contest m) (u_of 4 0) next (tr_index t)) (el_id el) None
                           (tr_index t) (tr_public_key t) next (mx_contest m) (u_of 4 0) (mx_votes m) (fst mp) (snd mp)))
            else Ok []
        | None => Ok []
        end
    | None => Ok []
    end.

  (** the last byte of the unique part replaced, 404-409 *)
  Definition with_last (u : arr 16) (b : byte) : arr 16 := @arr_app 15 1 (arr_slice u 0 15 eq_refl) (arr1 b).

  (** [process_partial_decryption], 389-476 *)
  Definition t_row (s : Store) (p : PartialTx) : res TaskError (list Ciphertext) :=
    match id_type (pd_upstream p) with
    | TVote =>
        let! v := map_err TNotFound (get_vote s (pd_upstream p)) in
        match find (fun ev => u_eqb (ev_contest ev) (pd_contest p)) (vt_votes (fst v)) with
        | Some ev => Ok (ev_selections ev)
        | None => Err (TCannotFindContest (pd_contest p))
        end
    | TMix =>
        let! m := map_err TNotFound (get_mix s (pd_upstream p)) in
        or_panic (nth_error (mx_out (fst m)) (N.to_nat (uv (pd_index p)))) PIndex
    | _ => Err TUnexpectedType
    end.
  Definition process_partial_decryption (s : Store) (p : PartialTx) : res TaskError (list STx) :=
    let! el := t_election s (pd_election p) in
    match trustee_from_election el node_key with
    | Some _ =>
        let start := mk_id (id_election (el_id el)) TPartialDecryption (with_last (id_unique (pd_id p)) x00) in
        let stop := mk_id (id_election (el_id el)) TPartialDecryption (with_last (id_unique (pd_id p)) xff) in
        let! l := lift (st_range s start stop) in
        if Nat.leb (N.to_nat (u8v (el_threshold el))) (List.length l) then
          let! parts := map_res (into_typed as_partial) l in
          let! cts := t_row s p in
          let! pks := t_multiple as_pubkey s (el_id el) TKeyGenPublicKey in
          let! sels := map_err TValidation (decrypt_vote cts (el_threshold el) (get_full_trustees el) pks parts) in
          one (XDecryption (mk_decryption (decryption_build_id (el_id el) (pd_upstream p) (pd_contest p) (pd_index p))
                 (el_id el) (pd_upstream p) (pd_index p) (pd_contest p) (map pd_trustee parts) sels))
        else Ok []
    | None => Ok []
    end.

  (** [generate_transactions], 10-35 *)
  Definition generate_transactions (s : Store) (x : STx) : res TaskError (list STx) :=
    match s_tx x with
    | XElection t => process_election t
    | XCommitment t => process_keygen_commitment s t
    | XShare t => process_keygen_share s t
    | XPublicKey t => process_keygen_public_key s t
    | XVotingEnd t => process_voting_end s t
    | XMix t => process_mix s t
    | XPartial t => process_partial_decryption s t
    | XEncryptionKey _ | XVote _ | XDecryption _ => Ok []
    end.
End Tasks.
