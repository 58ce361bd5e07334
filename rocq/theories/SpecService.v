(** * SpecService: vocabulary for the commit hook. *)
From Verif Require Import Base Utf8 Cbor Ident BuildId Crypto Types Serde Store SpecStore Prost Validate SpecValid
  Exonum SpecLedger Trustee Tasks SpecTasks.
Open Scope list_scope.

Section Spec.
  Context {C : Crypto} {TC : TCrypto}.
  Implicit Types (L : list STx) (el : ElectionTx).

  (** election named by a transaction that belongs to one *)
  Definition named_election (t : Tx) : option Identifier :=
    match t with
    | XElection _ => None
    | XCommitment t => Some (kc_election t) | XShare t => Some (ks_election t) | XPublicKey t => Some (kp_election t)
    | XEncryptionKey t => Some (ek_election t) | XVote t => Some (vt_election t) | XVotingEnd t => Some (ve_election t)
    | XMix t => Some (mx_election t) | XPartial t => Some (pd_election t) | XDecryption t => Some (dc_election t)
    end.
  (** the node with key [k] is a trustee of the election [e] *)
  Definition serves L (e : Identifier) (k : PublicKey) (el : ElectionTx) (t : Trustee) : Prop :=
    at_id L e (XElection el)
    /\ exists t0, first_with (fun t => tr_public_key t = k) (el_trustees el) t0
       /\ t = mk_trustee (tr_public_key t0) (tr_index t0) (u_of 8 (N.of_nat (List.length (el_trustees el)))) (el_threshold el).

  (** the trustee can open the recorded shares and the library accepts them *)
  Definition party_ready (sk : ed_secret) L (e : Identifier) (t : Trustee) : Prop :=
    forall shs cs, range_is L e TKeyGenShare XShare shs -> range_is L e TKeyGenCommitment XCommitment cs ->
    exists mine p, Forall2 (fun sh m => fst m = ks_trustee sh /\ assoc Byte.eqb (tr_index t) (sv (ks_shares sh)) = Some (snd m)) shs mine
      /\ party t sk (map (fun c => (kc_trustee c, kc_x25519 c)) cs) (map (fun c => (kc_trustee c, kc_commitment c)) cs) mine e = Ok p.
  (** the library can shuffle any rows *)
  Definition shuffles : Prop := forall seed ins key rnd, shuffle seed (N.of_nat (List.length ins)) ins key rnd <> None.
  (** the recorded partial decryptions whose identifier differs from that of [p] at most in the last byte *)
  Definition beside L (e : Identifier) (p : PartialTx) : list STx :=
    filter (fun x => arr_eqb (id_election (s_id x)) (id_election e) && tt_eqb (id_type (s_id x)) TPartialDecryption
                     && bytes_eqb (firstn 15 (arr_l (id_unique (s_id x)))) (firstn 15 (arr_l (id_unique (pd_id p))))) L.
  (** what the follow-up of [x] needs beyond a well-formed ledger *)
  Definition ready (dbg : bool) (sk : ed_secret) (r : Rnd) L (x : STx) : Prop :=
    forall e el t, named_election (s_tx x) = Some e -> serves L e (ed_public sk) el t ->
    match s_tx x with
    | XCommitment _ =>
        forall cs, range_is L e TKeyGenCommitment XCommitment cs ->
        exists m, @generate_shares C TC TaskError t (r_nonce r) sk (map (fun c => (kc_trustee c, kc_x25519 c)) cs) e
                    (map (fun c => (kc_trustee c, kc_commitment c)) cs) = Ok m
    | XShare _ => party_ready sk L e t
    | XVotingEnd _ =>
        match el_mix_config el with
        | Some _ => occupied L (slot0 e TEncryptionKey) /\ shuffles
        | None => party_ready sk L e t
        end
    | XMix m => party_ready sk L e t /\ shuffles /\ (dbg = true -> (u8v (mx_index m) < 254)%N)
    | XPartial p =>
        forall row parts pks, row_at L el (pd_upstream p) (pd_index p) (pd_contest p) row ->
          range_is L e TKeyGenPublicKey XPublicKey pks ->
          map s_tx (beside L e p) = map XPartial parts ->
          (u8v (el_threshold el) <= N.of_nat (List.length parts))%N ->
          exists sels, decrypts sel_decode el pks parts row sels
    | _ => True
    end.
End Spec.

Section Chain.
  Context {C : Crypto}.
  (** the envelope is addressed by some identifier *)
  Definition addressed (e : Env) : Prop := exists i, sv (en_id e) = id_to_string i.
  (** the envelopes of a chain of blocks *)
  Definition envelopes (bs : list (list (option Env))) : list Env :=
    flat_map (flat_map (fun o => match o with Some e => [e] | None => [] end)) bs.
  (** ledger after a chain of blocks *)
  Definition ledger_after (dbg : bool) (bs : list (list (option Env))) : Ledger := run dbg [] (envelopes bs).
  (** the follow-up work due for a chain: every item of every block except the last, in order, each against the
      ledger after the following block; with the item's position in its block *)
  Definition due (dbg : bool) (bs : list (list (option Env))) : list (nat * Ledger * option Env) :=
    flat_map (fun k => let b := nth k bs [] in
                       map (fun j => (j, ledger_after dbg (firstn (S (S k)) bs), nth j b None)) (seq 0 (List.length b)))
             (seq 0 (List.length bs - 1)).
End Chain.
