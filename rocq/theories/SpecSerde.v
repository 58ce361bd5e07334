(** * SpecSerde: independent vocabulary for signatures and serialisation. *)
From Verif Require Import Base Utf8 Cbor Ident Crypto Types.

Section Spec.
  Context {C : Crypto}.

  (** Two trustees agree on the fields that are part of the transaction. *)
  Definition trustee_agree (a b : Trustee) : Prop :=
    tr_public_key a = tr_public_key b /\ tr_index a = tr_index b.

  (** Same type and same content, except for the helper fields of trustees. *)
  Definition content_agree (t u : Tx) : Prop :=
    match t, u with
    | XElection a, XElection b =>
        el_id a = el_id b /\ el_authority a = el_authority b
        /\ Forall2 trustee_agree (el_trustees a) (el_trustees b)
        /\ el_threshold a = el_threshold b
        /\ el_authenticators a = el_authenticators b /\ el_auth_threshold a = el_auth_threshold b
        /\ el_mix_config a = el_mix_config b /\ el_ballots a = el_ballots b
        /\ el_contests a = el_contests b /\ el_props a = el_props b
    | _, _ => t = u
    end.

  (** A trustee with both helper fields zero. *)
  Definition trustee_plain (a : Trustee) : Prop := uv (tr_num a) = 0%N /\ tr_threshold a = x00.
  Definition plain (t : Tx) : Prop :=
    match t with XElection e => Forall trustee_plain (el_trustees e) | _ => True end.
End Spec.
