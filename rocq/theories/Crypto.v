(** * Crypto: the cryptographic dependencies as an interface.

    Everything the validation code calls in ed25519-dalek, rsa/rsa-fdh and cryptid.  Nothing is
    assumed about these functions here; laws are separate definitions at the end and appear as
    explicit hypotheses of the theorems that need them.

    Representation: a public key or signature is its byte string, accepted by the library's own
    parser ([ed_pk_ok], [ed_sig_ok]); an RSA public key is its CBOR image; the cryptid types
    (ciphertext, ElGamal public key, commitment, key proof, decryption share, shuffle proof)
    are identified with their serialised form (a CBOR item accepted by the library's
    deserialiser).  This assumes serialisation of those types is faithful. *)
From Verif Require Import Base Utf8 Cbor.

Class Crypto := {
  (* ed25519_dalek *)
  ed_pk_ok : arr 32 -> bool;
  ed_sig_ok : arr 64 -> bool;
  ed_secret : Type;
  ed_public : ed_secret -> sub ed_pk_ok;                      (* PublicKey::from(&SecretKey) *)
  ed_sign : ed_secret -> bytes -> sub ed_sig_ok;              (* ExpandedSecretKey::sign *)
  ed_verify : sub ed_pk_ok -> bytes -> sub ed_sig_ok -> bool; (* Verifier::verify *)
  (* rsa, rsa_fdh::blind *)
  rsa_pk_ok : bytes -> bool;
  rsa_hash : sub rsa_pk_ok -> bytes -> option bytes;          (* blind::hash_message *)
  rsa_verify : sub rsa_pk_ok -> bytes -> bytes -> bool;       (* blind::verify key digest sig *)
  (* cryptid *)
  ct_ok : cval -> bool;
  eg_pk_ok : cval -> bool;
  commit_ok : cval -> bool;
  pkproof_ok : cval -> bool;
  dshare_ok : cval -> bool;
  shproof_ok : cval -> bool;
  share_verify : sub dshare_ok -> sub pkproof_ok -> sub ct_ok -> bool;  (* DecryptShare::verify *)
  (* Decryption::new(k, ct); add_share(i, proof, share) in this order; finish() *)
  threshold_decrypt : byte -> sub ct_ok -> list (byte * sub pkproof_ok * sub dshare_ok) -> option bytes;
  (* PedersenCtx::with_generators(seed, n); ShuffleProof::verify *)
  shuffle_verify : bytes -> N -> list (list (sub ct_ok)) -> list (list (sub ct_ok)) ->
                   sub eg_pk_ok -> sub shproof_ok -> bool
}.

Definition PublicKey `{Crypto} := sub ed_pk_ok.
Definition Signature `{Crypto} := sub ed_sig_ok.
Definition AuthPublicKey `{Crypto} := sub rsa_pk_ok.
Definition Ciphertext `{Crypto} := sub ct_ok.
Definition EGPublicKey `{Crypto} := sub eg_pk_ok.
Definition KeygenCommitment `{Crypto} := sub commit_ok.
Definition PubkeyProof `{Crypto} := sub pkproof_ok.
Definition DecryptShare `{Crypto} := sub dshare_ok.
Definition ShuffleProof `{Crypto} := sub shproof_ok.

Definition pk_eqb `{Crypto} (a b : PublicKey) : bool := arr_eqb (sv a) (sv b).

(** Equality of CBOR items (used for [PartialEq] of ElGamal keys). *)
Fixpoint cval_eqb (a b : cval) : bool :=
  match a, b with
  | CUint x, CUint y | CNint x, CNint y | CF64 x, CF64 y => u_eqb x y
  | CF32 x, CF32 y => u_eqb x y
  | CBytes x, CBytes y => bytes_eqb x y
  | CText x, CText y => rs_eqb x y
  | CArr x, CArr y =>
      (fix go (x y : list cval) : bool :=
         match x, y with
         | [], [] => true
         | a :: x', b :: y' => cval_eqb a b && go x' y'
         | _, _ => false
         end) x y
  | CMap x, CMap y =>
      (fix go (x y : list (cval * cval)) : bool :=
         match x, y with
         | [], [] => true
         | (a, c) :: x', (b, d) :: y' => cval_eqb a b && cval_eqb c d && go x' y'
         | _, _ => false
         end) x y
  | CBool x, CBool y => Bool.eqb x y
  | CNull, CNull => true
  | _, _ => false
  end.
Definition egpk_eqb `{Crypto} (a b : EGPublicKey) : bool := cval_eqb (sv a) (sv b).

(** ** Named laws (hypotheses of individual theorems, never used silently) *)

(** signatures made with a secret key verify under its public key *)
Definition ed_sign_verifies `{Crypto} : Prop :=
  forall sk m, ed_verify (ed_public sk) m (ed_sign sk m) = true.
