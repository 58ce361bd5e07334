(** * Setup: making and passing on keys.

    cryptoballot_cli: [command_keygen], [command_trustee], [command_authn] and the secret key of main.rs 230-251;
    cryptoballot_server: the secret key of a node, main.rs 19-58.
    Command line parsing, the file system and [shellexpand] of file names are not modelled: a command returns what
    it writes to its file and what it prints.  Random values are arguments. *)
From Verif Require Import Base Hex Utf8 Cbor Value Ident Crypto Types Serde Validate Json Trustee Authn.
From Coq Require Strings.String.
Import String.StringSyntax.
Open Scope list_scope.

(** [SecretKey::from_bytes] of ed25519_dalek; [SecretKey::to_bytes] is [sk_bytes] of Trustee.v *)
Class SecretBytes {C : Crypto} := { sk_from : bytes -> option ed_secret }.

Definition line (l : bytes) : bytes := l ++ [x0a].

Section Setup.
  Context {C : Crypto} {TC : TCrypto} {SB : SecretBytes}.

  (** the client's secret key, main.rs 230-251: the argument, else the environment; an unreadable key ends
      the program with status 1 *)
  Inductive KeyExit := BadHex | BadKey.
  Definition given (arg env : option rstring) : option rstring := match arg with Some k => Some k | None => env end.
  Definition client_key (arg env : option rstring) : res KeyExit (option ed_secret) :=
    match given arg env with
    | None => Ok None
    | Some k =>
        let! b := ok_or (hex_decode (sv k)) BadHex in
        let! sk := ok_or (sk_from b) BadKey in Ok (Some sk)
    end.

  (** [command_keygen], command_keygen.rs 1-10 *)
  Definition keygen_text (sk : ed_secret) : bytes :=
    line (sv (lit "secret-key: ") ++ hex_encode (sk_bytes sk))
    ++ line (sv (lit "public-key: ") ++ hex_encode (arr_l (sv (ed_public sk)))).

  (** [Trustee::new], trustee.rs 66-83 *)
  Definition trustee_new (index : byte) (num : u64) (threshold : byte) (sk : ed_secret) : res Empty_set (Trustee * ed_secret) :=
    if Byte.eqb index x00 then Panic PAssert else Ok (mk_trustee (ed_public sk) index num threshold, sk).
  (** [command_trustee_generate], command_trustee.rs 14-41: (file, printed) *)
  Definition trustee_generate (sk : ed_secret) : res Empty_set (bytes * bytes) :=
    let! p := trustee_new x01 (u_of 8 1) x01 sk in
    Ok (hex_encode (sk_bytes (snd p)), line (jpretty (to_json (h_trustee (fst p))))).

  (** [command_authn_generate], command_authn.rs 14-54: (file, printed).  [secrets_text] is the JSON text of the
      private keys (a format of the rsa crate); [dbg]: debug build; a failing key generation panics ([unwrap]). *)
  Definition authn_generate {RB : RsaBlind} (dbg : bool) (secrets_text : list (rstring * rsa_secret) -> bytes)
    (keysize : N) (id : uuid) (gen : nat -> rsa_secret) : res Empty_set (bytes * bytes) :=
    if negb dbg && (keysize <? 2048)%N then Panic PAssert else
    match new_authenticator id gen [lit "TEST"] with
    | (Some a, secs) => Ok (secrets_text secs, line (jpretty (j_authenticator a)))
    | (None, _) => Panic PUnwrap
    end.

  (** main.rs 39-46 of cryptoballot_server: the secret key of the node from that of its service keypair
      (64 bytes, secret then public key) *)
  Definition node_secret (k : bytes) : res Empty_set ed_secret :=
    match hex_decode (hex_encode k) with
    | None => Panic PUnwrap
    | Some b => if Nat.ltb (length b) 32 then Panic PIndex else or_panic (sk_from (firstn 32 b)) PUnwrap
    end.
  (** the line printed in development mode, main.rs 49-58 *)
  Definition dev_line (k : bytes) : bytes := line (sv (lit "CRYPTOBALLOT_SECRET_KEY=") ++ firstn 64 (hex_encode k)).
End Setup.
