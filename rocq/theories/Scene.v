(** * Scene: a complete small election over the toy instance, with and without mixnet.
    Used only by examples and counterexamples. *)
From Verif Require Import Base Hex Utf8 Cbor Ident BuildId Crypto Types Serde Store Prost Validate Toy.
From Coq Require Import Strings.String.
Open Scope list_scope.
#[local] Existing Instance Toy.

Definition s1 (s : bytes) : rstring :=
  match sub_of utf8_valid s with Some x => x | None => @mk_sub bytes utf8_valid [] eq_refl end.
Definition n32 (n : N) : u32 := u_of 4 n.
Definition n16 (n : N) : u16 := u_of 2 n.
Definition sgn (b : byte) (t : Tx) : STx := mk_stx t (ed_sign (key_of b) (tx_bytes t)).

Definition EID : Identifier := election_build_id (arr_rep x11 15).
Definition UID : uuid := arr_rep x55 16.
Definition b1 : rstring := lit "b1".
Definition rsa1 : AuthPublicKey := any [x99].
Definition keys1 : imap rs_eqb AuthPublicKey :=
  @mk_sub _ (nodup_keys rs_eqb) [(b1, rsa1)] eq_refl.
Definition auth1 : Authenticator := mk_authenticator UID keys1.
Definition T (k i : byte) : Trustee := mk_trustee (pk_of k) i (u_of 8 0) x00.
Definition contest0 : Contest :=
  mk_contest (lit "c0") (n32 0) Plurality (n32 1) false
    [mk_candidate (lit "yes") no_props; mk_candidate (lit "no") no_props] no_props.
Definition ballot1 : Ballot := mk_ballot b1 [n32 0; n32 1] no_props.
Definition mixcfg : MixConfig := mk_mixconfig (u_of 8 60) None.

(** authority x01; trustees x0a (index 1), x0b (index 2); threshold 2; one authenticator *)
Definition election (mc : option MixConfig) : ElectionTx :=
  mk_election EID (pk_of x01) [T x0a x01; T x0b x02] x02 [auth1] x01 mc [ballot1] [contest0] no_props.

Definition egk : EGPublicKey := any (CUint (u_of 8 77)).
Definition proof_of (i : byte) : PubkeyProof := any (CUint (u_of 8 (u8v i))).
Definition shares12 : imap Byte.eqb bytes :=
  @mk_sub _ (nodup_keys Byte.eqb) [(x01, [xaa]); (x02, [xbb])] eq_refl.
Definition commitment (k i : byte) : STx :=
  sgn k (XCommitment (mk_commitment (commitment_build_id EID i) EID i (pk_of k) (arr_rep k 32) (any CNull))).
Definition share (k i : byte) : STx :=
  sgn k (XShare (mk_share (share_build_id EID i) EID i (pk_of k) shares12)).
Definition pubkey (k i : byte) : STx :=
  sgn k (XPublicKey (mk_pubkey (pubkey_build_id EID i) EID i (pk_of k) egk (proof_of i))).
Definition enckey : STx := sgn x01 (XEncryptionKey (mk_enckey (enckey_build_id EID) EID (pk_of x01) egk)).

Definition sel (s : rstring) : Selection := mk_selection false (n32 0) s.
Definition enc (s : Selection) (n : N) : Ciphertext := ct_of (sel_encode s) n.
Definition authn (k : byte) : Authentication :=
  mk_authentication UID ([x99] ++ toy_hash (auth_pack EID b1 (pk_of k))).
Definition vote_tx (k : byte) (s : rstring) : VoteTx :=
  mk_vote (vote_build_id EID (key_of k)) EID b1 [mk_encvote (n32 0) [enc (sel s) (u8v k)]] (pk_of k) [authn k].
Definition vote (k : byte) (s : rstring) : STx := sgn k (XVote (vote_tx k s)).
Definition votingend : STx := sgn x01 (XVotingEnd (mk_votingend (votingend_build_id EID) EID (pk_of x01))).

Definition setup (mc : option MixConfig) : list STx :=
  [sgn x01 (XElection (election mc)); commitment x0a x01; commitment x0b x02; share x0a x01; share x0b x02;
   pubkey x0a x01; pubkey x0b x02; enckey].
Definition voting : list STx := [vote x20 (lit "yes"); vote x21 (lit "no")].
Definition VIDS : list Identifier := [vote_build_id EID (key_of x20); vote_build_id EID (key_of x21)].

(** mixes: first by trustee 1 (swaps the two rows), second by trustee 2 *)
Definition rows1 : list (list Ciphertext) := [[enc (sel (lit "no")) 101]; [enc (sel (lit "yes")) 102]].
Definition rows2 : list (list Ciphertext) := [[enc (sel (lit "yes")) 201]; [enc (sel (lit "no")) 202]].
Definition mixproof (m t : byte) : ShuffleProof :=
  any (CArr [CBytes (mix_seed (n32 0) (n32 0) m t); sv egk]).
Definition mix_of (k t m : byte) (prev : option Identifier) (vids : list Identifier)
  (rows : list (list Ciphertext)) : MixTx :=
  mk_mix (mix_build_id EID (n32 0) (n32 0) m t) EID prev t (pk_of k) m (n32 0) (n32 0) vids rows (mixproof m t).
Definition mix1 : STx := sgn x0a (XMix (mix_of x0a x01 x00 None VIDS rows1)).
Definition mix2 : STx := sgn x0b (XMix (mix_of x0b x02 x01 (Some (s_id mix1)) VIDS rows2)).

(** partial decryptions and decryption of a slot *)
Definition partial (k i : byte) (up : Identifier) (row : N) (cts : list Ciphertext) : STx :=
  sgn k (XPartial (mk_partial (partial_build_id EID up (n32 0) (n16 row) i) EID up (n16 row) (n32 0) i (pk_of k)
    (map (fun c => any (toy_share (sv (proof_of i)) (sv c))) cts))).
Definition decryption (up : Identifier) (row : N) (ts : list byte) (v : list Selection) : STx :=
  sgn x00 (XDecryption (mk_decryption (decryption_build_id EID up (n32 0) (n16 row)) EID up (n16 row) (n32 0) ts v)).

Definition v20 : Identifier := vote_build_id EID (key_of x20).
Definition v21 : Identifier := vote_build_id EID (key_of x21).
Definition ending_plain : list STx :=
  [votingend;
   partial x0a x01 v20 0 [enc (sel (lit "yes")) 32]; partial x0b x02 v20 0 [enc (sel (lit "yes")) 32];
   partial x0a x01 v21 0 [enc (sel (lit "no")) 33]; partial x0b x02 v21 0 [enc (sel (lit "no")) 33];
   decryption v20 0 [x01; x02] [sel (lit "yes")]; decryption v21 0 [x01; x02] [sel (lit "no")]].
Definition m2 : Identifier := s_id mix2.
Definition ending_mix : list STx :=
  [votingend; mix1; mix2;
   partial x0a x01 m2 0 [enc (sel (lit "yes")) 201]; partial x0b x02 m2 0 [enc (sel (lit "yes")) 201];
   partial x0a x01 m2 1 [enc (sel (lit "no")) 202]; partial x0b x02 m2 1 [enc (sel (lit "no")) 202];
   decryption m2 0 [x01; x02] [sel (lit "yes")]; decryption m2 1 [x01; x02] [sel (lit "no")]].

Definition scene_plain : list STx := setup None ++ voting ++ ending_plain.
Definition scene_mix : list STx := setup (Some mixcfg) ++ voting ++ ending_mix.

(** validate each transaction against the in-memory store of the previous ones *)
Fixpoint replay (dbg : bool) (m : MemStore) (l : list STx) : res VError MemStore :=
  match l with
  | [] => Ok m
  | x :: l' => validate dbg (ms_store m) x ;; replay dbg (ms_set m x) l'
  end.
Definition accepts (l : list STx) : bool := is_ok (replay true ms_empty l) && is_ok (replay false ms_empty l).

Example scene_plain_accepted : accepts scene_plain = true.
Proof. vm_compute. reflexivity. Qed.
Example scene_mix_accepted : accepts scene_mix = true.
Proof. vm_compute. reflexivity. Qed.
