(** * Encrypt: a voter encrypts a vote (cryptoballot/src/vote.rs 157-171). *)
From Verif Require Import Base Utf8 Cbor Crypto Types Prost.
Open Scope list_scope.

Section Encrypt.
  Context {C : Crypto}.
  (** cryptid [PublicKey::encrypt(rng, buf)]: a ciphertext and the next state of the generator *)
  Variable R : Type.
  Variable eg_encrypt : EGPublicKey -> R -> bytes -> Ciphertext * R.

  (** vote.rs 158-171: one ciphertext per selection.  [Message::encode] into a [Vec] cannot fail. *)
  Fixpoint encrypt_vote (key : EGPublicKey) (vote : list Selection) (rng : R) : list Ciphertext * R :=
    match vote with
    | [] => ([], rng)
    | s :: vote' =>
        let (ct, rng') := eg_encrypt key rng (sel_encode s) in
        let (cts, rng'') := encrypt_vote key vote' rng' in
        (ct :: cts, rng'')
    end.
End Encrypt.
Arguments encrypt_vote {C R}.
