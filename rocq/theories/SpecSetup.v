(** * SpecSetup: what keys in text form stand for. *)
From Verif Require Import Base Utf8 Cbor Ident BuildId Crypto Types Store SpecHist SpecWire Trustee Setup.
Open Scope list_scope.

Section Spec.
  Context {C : Crypto} {TC : TCrypto} {SB : SecretBytes}.
  (** law of ed25519_dalek: a secret key is any 32 bytes *)
  Record key_bytes : Prop := {
    kb_len : forall sk, List.length (sk_bytes sk) = 32;
    kb_back : forall b sk, sk_from b = Some sk <-> b = sk_bytes sk;
    kb_all : forall b, List.length b = 32 -> sk_from b <> None
  }.
  (** the key the user has given: as argument, or else in the environment *)
  Definition chosen (arg env : option rstring) (k : rstring) : Prop := arg = Some k \/ arg = None /\ env = Some k.
  (** two trustees of the election have the same index *)
  Definition shared_index (el : ElectionTx) : Prop :=
    exists p t q u r, el_trustees el = p ++ t :: q ++ u :: r /\ tr_index t = tr_index u.
  (** every commitment among those of the election is for the election and under the identifier made from its index,
      as the nodes make them *)
  Definition own_slots (el : ElectionTx) (h : list STx) : Prop :=
    forall x t, In x h -> s_tx x = XCommitment t -> id_election (s_id x) = id_election (el_id el) ->
    kc_election t = el_id el /\ s_id x = commitment_build_id (el_id el) (kc_trustee t).
End Spec.
