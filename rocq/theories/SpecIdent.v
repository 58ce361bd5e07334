(** * SpecIdent: independent vocabulary for the identifier properties. *)
From Verif Require Import Base Ident BuildId.

(** Names of the objects of one election for which the code builds identifiers.
    Votes are named by the anonymous public key (32 bytes). *)
Inductive upstream :=
| UpVote (key : arr 32)
| UpMix (batch : u32) (mix trustee : byte) (row : u16).

Inductive object :=
| OElection
| OCommitment (trustee : byte)
| OShare (trustee : byte)
| OPublicKey (trustee : byte)
| OEncryptionKey
| OVotingEnd
| OVote (key : arr 32)
| OMix (contest batch : u32) (mix trustee : byte)
| OPartial (contest : u32) (up : upstream) (trustee : byte)
| ODecryption (contest : u32) (up : upstream).

(** The identifier the code builds for the object. *)
Definition up_id (e : Identifier) (contest : u32) (u : upstream) : Identifier :=
  match u with
  | UpVote k => vote_build_id e k
  | UpMix b m t _ => mix_build_id e contest b m t
  end.
Definition up_row (u : upstream) : u16 :=
  match u with UpVote _ => u_of 2 0 | UpMix _ _ _ r => r end.

Definition object_id (e : arr 15) (o : object) : Identifier :=
  let el := election_build_id e in
  match o with
  | OElection => el
  | OCommitment t => commitment_build_id el t
  | OShare t => share_build_id el t
  | OPublicKey t => pubkey_build_id el t
  | OEncryptionKey => enckey_build_id el
  | OVotingEnd => votingend_build_id el
  | OVote k => vote_build_id el k
  | OMix c b m t => mix_build_id el c b m t
  | OPartial c u t => partial_build_id el (up_id el c u) c (up_row u) t
  | ODecryption c u => decryption_build_id el (up_id el c u) c (up_row u)
  end.

(** Two keys agree on their first [n] bytes. *)
Definition key_prefix_eq (n : nat) (a b : arr 32) : Prop :=
  firstn n (arr_l a) = firstn n (arr_l b).

(** Equality of names, except that votes are compared on the first 16 bytes of the key and
    decryption slots of votes on the first 10. *)
Definition same_upstream (u v : upstream) : Prop :=
  match u, v with
  | UpVote k, UpVote k' => key_prefix_eq 10 k k'
  | UpMix b m t r, UpMix b' m' t' r' => b = b' /\ m = m' /\ t = t' /\ r = r'
  | _, _ => False
  end.
Definition same_object (o p : object) : Prop :=
  match o, p with
  | OVote k, OVote k' => key_prefix_eq 16 k k'
  | OPartial c u t, OPartial c' u' t' => c = c' /\ same_upstream u u' /\ t = t'
  | ODecryption c u, ODecryption c' u' => c = c' /\ same_upstream u u'
  | _, _ => o = p
  end.

(** The layout of identifiers as the comments in the source give it: offset, number of bytes and the
    value of these bytes as a big-endian number. *)
Definition kind_byte (o : object) : N :=
  match o with
  | OElection => 1 | OCommitment _ => 2 | OShare _ => 3 | OPublicKey _ => 4 | OEncryptionKey => 5
  | OVote _ => 6 | OVotingEnd => 7 | OMix _ _ _ _ => 8 | OPartial _ _ _ => 9 | ODecryption _ _ => 10
  end%N.
Definition slot_layout (u : upstream) : list (nat * nat * N) :=
  match u with
  | UpVote k => [(20, 1, 6%N); (21, 10, be_val (firstn 10 (arr_l k)))]
  | UpMix b m t r => [(20, 1, 8%N); (21, 4, uv b); (25, 1, u8v m); (26, 1, u8v t); (27, 2, 0%N); (29, 2, uv r)]
  end.
Definition layout (o : object) : list (nat * nat * N) :=
  (15, 1, kind_byte o) ::
  match o with
  | OElection | OEncryptionKey | OVotingEnd => [(16, 16, 0%N)]
  | OCommitment t | OShare t | OPublicKey t => [(16, 1, u8v t); (17, 15, 0%N)]
  | OVote k => [(16, 16, be_val (firstn 16 (arr_l k)))]
  | OMix c b m t => [(16, 4, uv c); (20, 4, uv b); (24, 1, u8v m); (25, 1, u8v t); (26, 6, 0%N)]
  | OPartial c u t => (16, 4, uv c) :: slot_layout u ++ [(31, 1, u8v t)]
  | ODecryption c u => (16, 4, uv c) :: slot_layout u ++ [(31, 1, 0%N)]
  end.
Definition has_layout (b : bytes) (l : list (nat * nat * N)) : Prop :=
  Forall (fun f => be_val (firstn (snd (fst f)) (skipn (fst (fst f)) b)) = snd f) l.
