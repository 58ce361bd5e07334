(** * SpecDecrypt: quorum law and the causes of panics. *)
From Verif Require Import Base Utf8 Ident BuildId Crypto Types Store SpecStore SpecValid.
Open Scope list_scope.

Section Spec.
  Context {C : Crypto}.

  (** Law: threshold decryption succeeds only with shares of at least [k] different indices. *)
  Definition threshold_quorum : Prop :=
    forall k ct l m, threshold_decrypt k ct l = Some m ->
    exists is, NoDup is /\ (u8v k <= N.of_nat (length is))%N
      /\ incl is (map (fun p => fst (fst p)) l).

  (** the identifier of trustee [i]'s partial decryption of the slot of [t] *)
  Definition partial_slot (t : DecryptionTx) (i : byte) : Identifier :=
    partial_build_id (dc_election t) (dc_upstream t) (dc_contest t) (dc_index t) i.

  (** ways in which validation of [x] against content [L] can panic; [dbg]: overflow checks on *)
  Inductive panic_cause (dbg : bool) (L : list STx) (x : STx) : Prop :=
  | pc_hash : forall t el a pk,          (* full-domain hash fails for an authenticator key *)
      s_tx x = XVote t -> at_id L (vt_election t) (XElection el) -> In a (el_authenticators el) ->
      In (vt_ballot t, pk) (sv (au_keys a)) ->
      rsa_hash pk (auth_message (vt_election t) (vt_ballot t) (vt_key t)) = None -> panic_cause dbg L x
  | pc_prev : forall t y,                (* prev_mix_id names something that is not a mix *)
      s_tx x = XMix t -> In y L -> mx_prev t = Some (s_id y) -> (forall m, s_tx y <> XMix m) ->
      panic_cause dbg L x
  | pc_trustee0 : forall t el,           (* trustee_index - 1 *)
      s_tx x = XMix t -> dbg = true -> at_id L (mx_election t) (XElection el) ->
      lists_trustee el x00 (mx_public t) -> mx_trustee t = x00 -> panic_cause dbg L x
  | pc_share : forall t el row i p,      (* a recorded partial decryption shorter than the row *)
      s_tx x = XDecryption t -> at_id L (dc_election t) (XElection el) ->
      row_at L el (dc_upstream t) (dc_index t) (dc_contest t) row ->
      In i (dc_trustees t) -> at_id L (partial_slot t i) (XPartial p) ->
      length (pd_shares p) < length row -> panic_cause dbg L x.
End Spec.
