(** * Authn: issuing authentications (cryptoballot/src/authn.rs).

    [Authenticator::verify] and [AuthPackage::digest] are in Validate.v ([auth_verify], [auth_digest]).
    The functions of rsa and rsa_fdh::blind called here are the fields of [RsaBlind]; nothing is assumed
    about them here.  Random values are arguments. *)
From Coq Require Import ZArith.
From Verif Require Import Base Utf8 Cbor Ident Crypto Types Serde Store Validate.
Open Scope list_scope.

Class RsaBlind {C : Crypto} := {
  (* rsa::RSAPrivateKey; RSAPublicKey::from *)
  rsa_secret : Type;
  rsa_pub : rsa_secret -> AuthPublicKey;
  (* blind::blind with the blinding factor drawn: (blinded digest, unblinder) *)
  rsa_blind : AuthPublicKey -> Z -> bytes -> bytes * bytes;
  (* blind::sign; the random number it takes only masks the computation *)
  rsa_sign : rsa_secret -> bytes -> option bytes;
  (* blind::unblind key signature unblinder *)
  rsa_unblind : AuthPublicKey -> bytes -> bytes -> bytes
}.

Section Authn.
  Context {C : Crypto} {RB : RsaBlind}.

  (** [IndexMap<String, V>::insert] *)
  Fixpoint put_str {V} (k : rstring) (v : V) (l : list (rstring * V)) : list (rstring * V) :=
    match l with
    | [] => [(k, v)]
    | (k', v') :: l' => if rs_eqb k k' then (k', v) :: l' else (k', v') :: put_str k v l'
    end.
  (** the two maps of [Authenticator::new], 62-71; [gen n] is the n-th generated key *)
  Fixpoint new_keys (n : nat) (gen : nat -> rsa_secret) (ballots : list rstring)
    (pubs : list (rstring * AuthPublicKey)) (secs : list (rstring * rsa_secret))
    : list (rstring * AuthPublicKey) * list (rstring * rsa_secret) :=
    match ballots with
    | [] => (pubs, secs)
    | b :: bs => new_keys (S n) gen bs (put_str b (rsa_pub (gen n)) pubs) (put_str b (gen n) secs)
    end.
  (** [Authenticator::new], 49-79, for a key size that is allowed and for which generation succeeds *)
  Definition new_authenticator (id : uuid) (gen : nat -> rsa_secret) (ballots : list rstring)
    : option Authenticator * list (rstring * rsa_secret) :=
    let (pubs, secs) := new_keys 0 gen ballots [] [] in
    (match sub_of (nodup_keys rs_eqb) pubs with Some m => Some (mk_authenticator id m) | None => None end, secs).

  (** [AuthPackage::blind], 149-158 *)
  Definition auth_blind {E} (r : Z) (pk : AuthPublicKey) (e : Identifier) (ballot : rstring) (k : PublicKey)
    : res E (bytes * bytes) :=
    let! d := auth_digest pk e ballot k in Ok (rsa_blind pk r d).
  (** [Authenticator::authenticate], 85-98 *)
  Definition authenticate {E} (a : Authenticator) (sk : rsa_secret) (blinded : bytes) : res E Authentication :=
    let! s := or_panic (rsa_sign sk blinded) PExpect in Ok (mk_authentication (au_id a) s).
  (** [Authentication::unblind], 188-195 *)
  Definition auth_unblind (an : Authentication) (pk : AuthPublicKey) (u : bytes) : Authentication :=
    mk_authentication (an_authenticator an) (rsa_unblind pk (an_signature an) u).
  (** the whole exchange, as in the test at 205-231 and in cryptoballot_cli *)
  Definition obtain {E} (r : Z) (a : Authenticator) (sk : rsa_secret) (pk : AuthPublicKey)
    (e : Identifier) (ballot : rstring) (k : PublicKey) : res E Authentication :=
    let! p := auth_blind r pk e ballot k in
    let! an := authenticate a sk (fst p) in
    Ok (auth_unblind an pk (snd p)).
End Authn.
