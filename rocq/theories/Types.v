(** * Types: the transaction structs and enums. *)
From Verif Require Import Base Utf8 Cbor Value Ident Crypto.

(** [IndexMap<K, V>]: insertion-ordered association list with distinct keys. *)
Fixpoint mem_key {K} (eqb : K -> K -> bool) (k : K) (l : list K) : bool :=
  match l with [] => false | x :: l' => eqb k x || mem_key eqb k l' end.
Fixpoint nodup_keys {K V} (eqb : K -> K -> bool) (l : list (K * V)) : bool :=
  match l with
  | [] => true
  | (k, _) :: l' => negb (mem_key eqb k (map fst l')) && nodup_keys eqb l'
  end.
Definition imap {K} (eqb : K -> K -> bool) (V : Type) := sub (@nodup_keys K V eqb).
(** [IndexMap::get] *)
Fixpoint assoc {K V} (eqb : K -> K -> bool) (k : K) (l : list (K * V)) : option V :=
  match l with [] => None | (x, v) :: l' => if eqb k x then Some v else assoc eqb k l' end.

(** application properties: [IndexMap<String, serde_json::Value>] *)
Definition props := imap rs_eqb Value.

(** uuid::Uuid *)
Definition uuid := arr 16.

(** ballot.rs 47-167 *)
Inductive ContestType :=
| Plurality | Score | Approval | Condorcet | Borda | BordaClassic | BordaDowdall
| BordaModifiedClassic | SchulzeWinning | SchulzeRatio | SchulzeMargin.

(** ballot.rs 35-45 *)
Record Candidate := mk_candidate { cand_id : rstring; cand_props : props }.
(** ballot.rs 17-33 *)
Record Contest := mk_contest {
  cont_id : rstring; cont_index : u32; cont_type : ContestType; cont_winners : u32;
  cont_write_in : bool; cont_candidates : list Candidate; cont_props : props }.
(** ballot.rs 4-15 *)
Record Ballot := mk_ballot { bal_id : rstring; bal_contests : list u32; bal_props : props }.
(** ballot.rs 169-187 *)
Record Selection := mk_selection { sel_write_in : bool; sel_score : u32; sel_text : rstring }.
(** mix.rs 9-13 *)
Record MixConfig := mk_mixconfig { mc_timeout : u64; mc_batch : option u16 }.

Section Types.
  Context {C : Crypto}.

  (** trustee.rs 31-44; [num_trustees] (usize, 64 bits) and [threshold] are not serialised *)
  Record Trustee := mk_trustee {
    tr_public_key : PublicKey; tr_index : byte; tr_num : u64; tr_threshold : byte }.

  (** authn.rs 35-39 *)
  Record Authenticator := mk_authenticator {
    au_id : uuid; au_keys : imap rs_eqb AuthPublicKey }.

  (** authn.rs 176-182 *)
  Record Authentication := mk_authentication { an_authenticator : uuid; an_signature : bytes }.

  (** election.rs 8-48 *)
  Record ElectionTx := mk_election {
    el_id : Identifier;
    el_authority : PublicKey;
    el_trustees : list Trustee;
    el_threshold : byte;
    el_authenticators : list Authenticator;
    el_auth_threshold : byte;
    el_mix_config : option MixConfig;
    el_ballots : list Ballot;
    el_contests : list Contest;
    el_props : props }.

  (** keygen.rs 8-19 *)
  Record CommitmentTx := mk_commitment {
    kc_id : Identifier; kc_election : Identifier; kc_trustee : byte; kc_public : PublicKey;
    kc_x25519 : arr 32; kc_commitment : KeygenCommitment }.

  (** keygen.rs 22-32; [EncryptedShare] is a byte string (trustee.rs 245-246) *)
  Record ShareTx := mk_share {
    ks_id : Identifier; ks_election : Identifier; ks_trustee : byte; ks_public : PublicKey;
    ks_shares : imap Byte.eqb bytes }.

  (** keygen.rs 35-44 *)
  Record PublicKeyTx := mk_pubkey {
    kp_id : Identifier; kp_election : Identifier; kp_trustee : byte; kp_public : PublicKey;
    kp_key : EGPublicKey; kp_proof : PubkeyProof }.

  (** keygen.rs 47-54 *)
  Record EncryptionKeyTx := mk_enckey {
    ek_id : Identifier; ek_election : Identifier; ek_authority : PublicKey; ek_key : EGPublicKey }.

  (** vote.rs 34-38 *)
  Record EncryptedVote := mk_encvote { ev_contest : u32; ev_selections : list Ciphertext }.
  (** vote.rs 17-32 *)
  Record VoteTx := mk_vote {
    vt_id : Identifier; vt_election : Identifier; vt_ballot : rstring;
    vt_votes : list EncryptedVote; vt_key : PublicKey; vt_authn : list Authentication }.

  (** voting_end.rs 5-11 *)
  Record VotingEndTx := mk_votingend {
    ve_id : Identifier; ve_election : Identifier; ve_authority : PublicKey }.

  (** mix.rs 16-53 *)
  Record MixTx := mk_mix {
    mx_id : Identifier; mx_election : Identifier; mx_prev : option Identifier;
    mx_trustee : byte; mx_public : PublicKey; mx_index : byte; mx_contest : u32; mx_batch : u32;
    mx_votes : list Identifier; mx_out : list (list Ciphertext); mx_proof : ShuffleProof }.

  (** decryption.rs 11-31 *)
  Record PartialTx := mk_partial {
    pd_id : Identifier; pd_election : Identifier; pd_upstream : Identifier; pd_index : u16;
    pd_contest : u32; pd_trustee : byte; pd_public : PublicKey; pd_shares : list DecryptShare }.

  (** decryption.rs 180-201 *)
  Record DecryptionTx := mk_decryption {
    dc_id : Identifier; dc_election : Identifier; dc_upstream : Identifier; dc_index : u16;
    dc_contest : u32; dc_trustees : list byte; dc_vote : list Selection }.

  (** [Transaction], transaction.rs 23-34 *)
  Inductive Tx :=
  | XElection (t : ElectionTx)
  | XCommitment (t : CommitmentTx)
  | XShare (t : ShareTx)
  | XPublicKey (t : PublicKeyTx)
  | XEncryptionKey (t : EncryptionKeyTx)
  | XVote (t : VoteTx)
  | XVotingEnd (t : VotingEndTx)
  | XMix (t : MixTx)
  | XPartial (t : PartialTx)
  | XDecryption (t : DecryptionTx).

  (** [SignedTransaction], transaction.rs 90-104, with [Signed<T>] (238-244): the Rust enum of
      ten [Signed<T>] is represented by the isomorphic pair of an untyped transaction and a signature. *)
  Record STx := mk_stx { s_tx : Tx; s_sig : Signature }.

  (** transaction.rs 38-51, 108-121 *)
  Definition tx_type (t : Tx) : TxType :=
    match t with
    | XElection _ => TElection | XCommitment _ => TKeyGenCommitment | XShare _ => TKeyGenShare
    | XPublicKey _ => TKeyGenPublicKey | XEncryptionKey _ => TEncryptionKey | XVote _ => TVote
    | XVotingEnd _ => TVotingEnd | XMix _ => TMix | XPartial _ => TPartialDecryption
    | XDecryption _ => TDecryption
    end.

  (** transaction.rs 54-67, 134-147 *)
  Definition tx_id (t : Tx) : Identifier :=
    match t with
    | XElection t => el_id t | XCommitment t => kc_id t | XShare t => ks_id t
    | XPublicKey t => kp_id t | XEncryptionKey t => ek_id t | XVote t => vt_id t
    | XVotingEnd t => ve_id t | XMix t => mx_id t | XPartial t => pd_id t
    | XDecryption t => dc_id t
    end.

  (** [CryptoBallotTransaction::election_id] of each type *)
  Definition tx_election (t : Tx) : Identifier :=
    match t with
    | XElection t => el_id t | XCommitment t => kc_election t | XShare t => ks_election t
    | XPublicKey t => kp_election t | XEncryptionKey t => ek_election t | XVote t => vt_election t
    | XVotingEnd t => ve_election t | XMix t => mx_election t | XPartial t => pd_election t
    | XDecryption t => dc_election t
    end.

  (** [CryptoBallotTransaction::public] of each type (a Decryption has none, decryption.rs 243-247) *)
  Definition tx_public (t : Tx) : option PublicKey :=
    match t with
    | XElection t => Some (el_authority t) | XCommitment t => Some (kc_public t)
    | XShare t => Some (ks_public t) | XPublicKey t => Some (kp_public t)
    | XEncryptionKey t => Some (ek_authority t) | XVote t => Some (vt_key t)
    | XVotingEnd t => Some (ve_authority t) | XMix t => Some (mx_public t)
    | XPartial t => Some (pd_public t) | XDecryption _ => None
    end.

  Definition s_id (s : STx) : Identifier := tx_id (s_tx s).
  Definition s_type (s : STx) : TxType := tx_type (s_tx s).
End Types.
