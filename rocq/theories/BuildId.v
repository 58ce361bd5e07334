(** * BuildId: the [build_id] functions of all transaction types.

    A public key enters only through its 32 bytes ([PublicKey::as_bytes]). *)
From Verif Require Import Base Ident.

(** [ElectionTransaction::build_id], election.rs 73-79 *)
Definition election_build_id (e : arr 15) : Identifier := mk_id e TElection (arr_rep x00 16).

(** [let mut unique_info = [0; 16]; unique_info[0] = trustee_index] *)
Definition first_byte (b : byte) : arr 16 := @arr_app 1 15 (arr1 b) (arr_rep x00 15).

(** keygen.rs 75-83 *)
Definition commitment_build_id (e : Identifier) (trustee : byte) : Identifier :=
  id_new e TKeyGenCommitment (Some (first_byte trustee)).
(** keygen.rs 149-153 *)
Definition share_build_id (e : Identifier) (trustee : byte) : Identifier :=
  id_new e TKeyGenShare (Some (first_byte trustee)).
(** keygen.rs 232-240 *)
Definition pubkey_build_id (e : Identifier) (trustee : byte) : Identifier :=
  id_new e TKeyGenPublicKey (Some (first_byte trustee)).
(** keygen.rs 302-304 *)
Definition enckey_build_id (e : Identifier) : Identifier := id_new e TEncryptionKey None.
(** voting_end.rs 16-22 ([new]; there is no build_id): [Identifier::new(election_id, TransactionType::VotingEnd, None)] *)
Definition votingend_build_id (e : Identifier) : Identifier := id_new e TVotingEnd None.
(** vote.rs 61-68 *)
Definition vote_build_id (e : Identifier) (pk : arr 32) : Identifier :=
  id_new e TVote (Some (arr_slice pk 0 16 eq_refl)).

(** mix.rs 91-111 *)
Definition mix_unique (contest batch : u32) (mix trustee : byte) : arr 16 :=
  @arr_app 4 12 (to_be contest)
    (@arr_app 4 8 (to_be batch)
      (@arr_app 1 7 (arr1 mix) (@arr_app 1 6 (arr1 trustee) (arr_rep x00 6)))).
Definition mix_build_id (e : Identifier) (contest batch : u32) (mix trustee : byte) : Identifier :=
  id_new e TMix (Some (mix_unique contest batch mix trustee)).

(** decryption.rs 444-476 ([build_unique_info]) *)
Definition slot_unique (up : Identifier) (contest : u32) (idx : u16) (trustee : byte) : arr 16 :=
  @arr_app 4 12 (to_be contest)
    (@arr_app 1 11 (arr1 (tt_u8 (id_type up)))
      (match id_type up with
       | TMix => @arr_app 8 3 (arr_slice (id_unique up) 4 8 eq_refl)
                   (@arr_app 2 1 (to_be idx) (arr1 trustee))
       | TVote => @arr_app 10 1 (arr_slice (id_unique up) 0 10 eq_refl) (arr1 trustee)
       | _ => arr_rep x00 11
       end)).
(** decryption.rs 63-78 *)
Definition partial_build_id (e up : Identifier) (contest : u32) (idx : u16) (trustee : byte) : Identifier :=
  id_new e TPartialDecryption (Some (slot_unique up contest idx trustee)).
(** decryption.rs 225-234 *)
Definition decryption_build_id (e up : Identifier) (contest : u32) (idx : u16) : Identifier :=
  id_new e TDecryption (Some (slot_unique up contest idx x00)).

(** [generate_pedersen_seed], mix.rs 317-328: the seed of [PedersenCtx::with_generators]:
    trustee index, mix index, contest (be), batch (be). *)
Definition mix_seed (contest batch : u32) (mix trustee : byte) : bytes :=
  [trustee; mix] ++ arr_l (to_be contest) ++ arr_l (to_be batch).
