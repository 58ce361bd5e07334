(** * SpecAudit: which histories can be replayed in identifier order. *)
From Verif Require Import Base Utf8 Ident Crypto Types SpecStore SpecValid.
Open Scope list_scope.

Section Spec.
  Context {C : Crypto}.
  (** the elections that are replayed, selected by their identifier bytes *)
  Context (E : arr 15 -> bool).
  Definition mine (x : STx) : Prop := E (id_election (s_id x)) = true.
  Definition same_election (x y : STx) : Prop := id_election (s_id x) = id_election (s_id y).

  Record orderly (l : list STx) : Prop := {
    (* transactions sit in slots of the election they name *)
    or_slot : forall x, In x l -> mine x -> id_election (s_id x) = id_election (tx_election (s_tx x));
    (* decryptions refer to their own election *)
    or_partial : forall x t, In x l -> mine x -> s_tx x = XPartial t ->
      id_election (pd_upstream t) = id_election (pd_election t);
    or_decryption : forall x t, In x l -> mine x -> s_tx x = XDecryption t ->
      id_election (dc_upstream t) = id_election (dc_election t);
    (* no public key is added after the encryption key or a decryption *)
    or_keys : forall p x q y, l = p ++ x :: q -> In y q -> mine x ->
      s_type x = TEncryptionKey \/ s_type x = TDecryption -> s_type y = TKeyGenPublicKey -> ~ same_election x y;
    (* no vote is added after a first mix *)
    or_mix : forall p x q y m, l = p ++ x :: q -> In y q -> mine x ->
      s_tx x = XMix m -> mx_prev m = None -> s_type y = TVote -> ~ same_election x y;
    (* no two voters share ten key bytes *)
    or_votes : forall x y v w, In x l -> In y l -> mine x -> same_election x y ->
      s_tx x = XVote v -> s_tx y = XVote w ->
      firstn 10 (arr_l (sv (vt_key v))) = firstn 10 (arr_l (sv (vt_key w))) -> x = y
  }.
End Spec.
