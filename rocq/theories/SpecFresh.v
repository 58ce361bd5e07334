(** * SpecFresh: what each secret is derived from and which random value each output uses. *)
From Verif Require Import Base Utf8 Cbor Ident Crypto Types Prost Trustee Tasks.
Open Scope list_scope.

(** what a trustee derives: its exchange key, the seed of its polynomial, the key shared with another *)
Inductive purpose := ForExchange | ForPolynomial | ForPair.
(** inputs of a key derivation (salt, key material, label) that tell apart material, election and purpose *)
Definition separating (input : bytes -> Identifier -> purpose -> bytes * bytes * bytes) : Prop :=
  forall k e u k' e' u', input k e u = input k' e' u' -> k = k' /\ e = e' /\ u = u'.

Section Spec.
  Context {C : Crypto} {TC : TCrypto}.
  Definition derive (x : bytes * bytes * bytes) : arr 32 := let '(salt, ikm, info) := x in hkdf salt ikm info.
  (** the sealing of [s] under [key] with [nonce], the nonce in front *)
  Definition sealed (key : arr 32) (nonce : arr 12) (s : scalar) (es : bytes) : Prop :=
    es = arr_l nonce ++ gcm_enc key nonce (scalar_bytes s).
  (** [i]-th output of a node: with which draws it was made *)
  Definition made_with (r : Rnd) (i : nat) (t : Tx) : Prop :=
    match t with
    | XShare x => exists at_ : byte -> nat, (forall j j' es es', In (j, es) (sv (ks_shares x)) -> In (j', es') (sv (ks_shares x)) ->
          at_ j = at_ j' -> j = j')
        /\ forall j es, In (j, es) (sv (ks_shares x)) -> exists key s, sealed key (r_nonce r (at_ j)) s es
    | XPartial x => forall j d, nth_error (pd_shares x) j = Some d -> exists p ct, d = tp_decrypt_share p ct (r_share r i j)
    | XMix x => exists seed n ins key, shuffle seed n ins key (r_mix r i) = Some (mx_out x, mx_proof x)
    | _ => True
    end.
End Spec.

Section Vote.
  Context {C : Crypto}.
  (** messages encrypted one after the other, each with the generator as the one before left it *)
  Inductive in_turn {R} (enc : EGPublicKey -> R -> bytes -> Ciphertext * R) (key : EGPublicKey) : R -> list bytes -> list Ciphertext -> R -> Prop :=
  | it_none : forall g, in_turn enc key g [] [] g
  | it_next : forall g m ms ct cts g' g'', enc key g m = (ct, g') -> in_turn enc key g' ms cts g'' ->
      in_turn enc key g (m :: ms) (ct :: cts) g''.
End Vote.
