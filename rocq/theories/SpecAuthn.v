(** * SpecAuthn: what the RSA functions compute, as arithmetic on the numbers written in big-endian bytes. *)
From Coq Require Import ZArith Znumtheory.
From Verif Require Import Base Utf8 Cbor Ident Crypto Types Authn.
Open Scope Z_scope.

(** the number written by a byte string, most significant byte first *)
Fixpoint number_from (acc : Z) (l : bytes) : Z :=
  match l with [] => acc | b :: l' => number_from (256 * acc + Z.of_N (u8v b)) l' end.
Definition number (l : bytes) : Z := number_from 0 l.

(** (n, e, d) is an RSA key: n is the product of two different primes and d inverts e *)
Definition rsa_key (n e d : Z) : Prop :=
  exists p q, prime p /\ prime q /\ p <> q /\ n = p * q /\ 0 < e /\ 0 < d
    /\ (p - 1 | e * d - 1) /\ (q - 1 | e * d - 1).

Section Spec.
  Context {C : Crypto} {RB : RsaBlind}.
  Context (modulus exponent : AuthPublicKey -> Z) (private : rsa_secret -> Z).

  (** The functions of rsa 0.x and rsa-fdh 0.5 as documented.  A digest is smaller than the modulus. *)
  Record rsa_scheme : Prop := {
    rs_key : forall sk, rsa_key (modulus (rsa_pub sk)) (exponent (rsa_pub sk)) (private sk);
    rs_pos : forall pk, 0 < modulus pk /\ 0 < exponent pk;
    rs_hash : forall pk m h, rsa_hash pk m = Some h -> number h < modulus pk;
    rs_sign : forall sk m, number m < modulus (rsa_pub sk) ->
      exists s, rsa_sign sk m = Some s /\ number s = number m ^ private sk mod modulus (rsa_pub sk);
    rs_blind : forall pk r h, rel_prime r (modulus pk) ->
      number (fst (rsa_blind pk r h)) = (number h * r ^ exponent pk) mod modulus pk
      /\ (r * number (snd (rsa_blind pk r h))) mod modulus pk = 1 mod modulus pk;
    (* the bytes sent are determined by the number *)
    rs_canonical : forall pk r h r' h', number (fst (rsa_blind pk r h)) = number (fst (rsa_blind pk r' h')) ->
      fst (rsa_blind pk r h) = fst (rsa_blind pk r' h');
    rs_unblind : forall pk s u, number (rsa_unblind pk s u) = (number s * number u) mod modulus pk;
    (* nothing is assumed about signatures that are not smaller than the modulus, except that no wrong one is accepted *)
    rs_sound : forall pk h s, number h < modulus pk -> rsa_verify pk h s = true ->
      number s ^ exponent pk mod modulus pk = number h;
    rs_verify : forall pk h s, number h < modulus pk -> number s < modulus pk ->
      number s ^ exponent pk mod modulus pk = number h -> rsa_verify pk h s = true
  }.
End Spec.
