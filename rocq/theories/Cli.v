(** * Cli: the commands that make transactions (cryptoballot_cli/src).

    Command line parsing, printing and HTTP are not modelled: arguments are given as strings, and
    [rest::get_transaction] (rest.rs 47-58) is the node's answer, [get_tx].  A command that stops with
    [process::exit(1)] is an [Err].  Random values are arguments. *)
From Verif Require Import Base Hex Utf8 Cbor Ident BuildId Crypto Types Serde Store Prost Validate Exonum Api Encrypt.
From Coq Require Strings.String.
Import String.StringSyntax.
Open Scope list_scope.

Section Cli.
  Context {C : Crypto}.
  (** [shellexpand::full] on a string; [None]: an error (an unset variable) *)
  Context (shellexpand : rstring -> option rstring).
  Context {R : Type} (eg_encrypt : EGPublicKey -> R -> bytes -> Ciphertext * R).

  Inductive CliExit := ExpandError.
  (** [expand], main.rs 383-391 *)
  Definition expand (s : rstring) : res CliExit rstring := ok_or (shellexpand s) ExpandError.

  (** [Signed::sign(..).unwrap()] *)
  Definition signed {E} (sk : ed_secret) (t : Tx) : res E STx :=
    match sign sk t with Ok x => Ok x | Err _ => Panic PUnwrap | Panic p => Panic p end.

  Definition no_properties : props := @mk_sub _ (nodup_keys rs_eqb) [] eq_refl.

  (** [ElectionTransaction::new], election.rs 55-71 *)
  Definition election_new (id : arr 15) (authority : PublicKey) : ElectionTx :=
    mk_election (election_build_id id) authority [] x01 [] x01 None [] [] no_properties.

  (** [command_election_generate], command_election.rs 31-70 *)
  Definition cli_election (id : arr 15) (sk : ed_secret) : res CliExit STx :=
    let public_key := ed_public sk in
    let election := election_new id public_key in
    let ballot := mk_ballot (lit "BALLOT1") [u_of 4 0] no_properties in
    let contest := mk_contest (lit "TESTCONTEST") (u_of 4 0) Plurality (u_of 4 1) true [] no_properties in
    let trustee := mk_trustee public_key x01 (u_of 8 1) x01 in
    signed sk (XElection (mk_election (el_id election) (el_authority election) [trustee] (el_threshold election)
      (el_authenticators election) x00 (Some (mk_mixconfig (u_of 8 0) None)) [ballot] [contest] (el_props election))).

  (** [rest::get_transaction(uri, id)]; the identifier travels as its string *)
  Definition fetch (L : Ledger) (i : Identifier) : res ApiError STx :=
    get_tx L (mk_sub (id_to_string i) (norm_true (hex_utf8 (id_to_bytes i)))).

  (** [command_vote_generate], command_vote.rs 14-80; [sk] is the given or the generated key *)
  Definition cli_vote (L : Ledger) (rng : R) (sk : ed_secret) (election vote : rstring) : res CliExit STx :=
    let public_key := ed_public sk in
    let! election_id := expand election in
    let! secret_vote := expand vote in
    let selection := mk_selection true (u_of 4 0) secret_vote in
    let! enc_id := or_panic (id_new_from_str (sv election_id) TEncryptionKey None) PAssert in
    let! x := match fetch L enc_id with Ok x => Ok x | Err _ => Panic PExpect | Panic p => Panic p end in
    let! k := into_typed as_enckey x in
    let (selections, _) := encrypt_vote eg_encrypt (ek_key k) [selection] rng in
    signed sk (XVote (mk_vote (vote_build_id (ek_election k) (sv public_key)) (ek_election k) (lit "BALLOT1")
      [mk_encvote (u_of 4 0) selections] public_key [])).

  (** [command_voting_end_generate], command_voting_end.rs 26-49 *)
  Definition cli_voting_end (sk : ed_secret) (election : rstring) : res CliExit STx :=
    let public_key := ed_public sk in
    let! election_id := expand election in
    let! e := or_panic (id_new_from_str (sv election_id) TElection None) PAssert in
    signed sk (XVotingEnd (mk_votingend (votingend_build_id e) e public_key)).

  (** [rest::post_transaction], rest.rs 18-45: the node executes the envelope *)
  Definition post (dbg : bool) (L : Ledger) (x : STx) : Ledger := submit dbg L (into_env x).
  (** [command_post_transaction], command_post_transaction.rs 30-48: a list is posted in order *)
  Definition cli_post (dbg : bool) (L : Ledger) (l : list STx) : Ledger := fold_left (post dbg) l L.
End Cli.
