(** * Props_Serde: C07 (signing), C08 (signed bytes pin the content), C09 (wire round trip). *)
From Verif Require Import Base BaseFacts Utf8 Cbor CborFacts Value Ident Crypto Types Serde SerdeFacts SpecSerde ReserFacts
  Store Validate ValidateFacts Toy Scene.
From Coq Require Import Strings.String.
Open Scope list_scope.

Section Props.
  Context {C : Crypto}.

  (** C07: signing with the declared key succeeds and verifies (law: ed25519 correctness) *)
  Theorem C07_sign_verifies :
    ed_sign_verifies ->
    forall sk t, tx_public t = Some (ed_public sk) ->
    exists x, sign sk t = Ok x /\ s_tx x = t /\ verify_signature x = Ok tt.
  Proof.
    intros L sk t Hp. exists (mk_stx t (ed_sign sk (tx_bytes t))). split; [|split; [reflexivity|]].
    - apply sign_ok. split; [reflexivity|]. intros p Hq. congruence.
    - apply verify_signature_ok. cbn [s_tx s_sig]. intros p Hq. rewrite Hp in Hq. injection Hq as <-. apply L.
  Qed.
  (** C07: signing with any other key is refused *)
  Theorem C07_other_key_refused :
    forall sk t p, tx_public t = Some p -> p <> ed_public sk -> sign sk t = Err MismatchedPublicKeys.
  Proof. exact sign_err. Qed.
  (** C07: whatever [sign] returns is the given transaction, and its declared key is the signer's *)
  Theorem C07_signed_by_declared_key :
    forall sk t x, sign sk t = Ok x -> s_tx x = t /\ forall p, tx_public t = Some p -> p = ed_public sk.
  Proof. intros sk t x H. apply sign_ok in H as [-> H]. split; [reflexivity|exact H]. Qed.
  (** C07: an accepted transaction with a declared key carries a valid signature of its own content *)
  Theorem C07_accepted_signature_valid :
    forall dbg s x p, validate dbg s x = Ok tt -> tx_public (s_tx x) = Some p ->
    ed_verify p (cenc (ser_tx (s_tx x))) (s_sig x) = true.
  Proof. exact validate_signed. Qed.
  (** only a Decryption declares no key *)
  Theorem C07_who_declares_a_key :
    forall t, tx_public t = None <-> tx_type t = TDecryption.
  Proof. intros []; cbn; split; congruence. Qed.

  (** C08: equal signed bytes, equal content.  [cwf] says that all lengths fit in 64 bits. *)
  Theorem C08_signed_bytes_pin_content :
    forall t u, cwf (ser_tx t) = true -> cwf (ser_tx u) = true ->
    tx_bytes t = tx_bytes u -> content_agree t u.
  Proof. intros t u Ht Hu H. apply norm_agree, tx_bytes_inj; assumption. Qed.
  Theorem C08_types_separated :
    forall t u, cwf (ser_tx t) = true -> cwf (ser_tx u) = true ->
    tx_bytes t = tx_bytes u -> tx_type t = tx_type u.
  Proof. intros t u Ht Hu H. apply ser_tx_keys. rewrite (cenc_inj _ _ Ht Hu H). reflexivity. Qed.
  (** conversely the helper fields are not covered by the signature *)
  Theorem C08_helper_fields_unsigned :
    forall t u, content_agree t u -> tx_bytes t = tx_bytes u.
  Proof.
    intros t u H. unfold tx_bytes. rewrite <- (ser_norm t), <- (ser_norm u), (agree_norm t u H). reflexivity.
  Qed.
  (** a signature whose only valid message under key [p] is [t]'s verifies on no other content *)
  Theorem C08_signature_not_transferable :
    forall t u p s, cwf (ser_tx t) = true -> cwf (ser_tx u) = true ->
    (forall m, ed_verify p m s = true -> m = tx_bytes t) ->
    tx_public u = Some p -> verify_signature (mk_stx u s) = Ok tt -> content_agree t u.
  Proof.
    intros t u p s Ht Hu L Hp V. apply verify_signature_ok with (p := p) in V; [|exact Hp].
    apply L in V. cbn [s_tx] in V. apply C08_signed_bytes_pin_content; auto.
  Qed.

  (** C09, for transactions nested at most 127 deep *)
  Theorem C09_wire_roundtrip_partial :
    forall x, cwf (ser_stx x) = true -> cdepth (ser_stx x) <= 127 ->
    exists y, stx_from_bytes (stx_bytes x) = Ok y
      /\ s_sig y = s_sig x /\ content_agree (s_tx x) (s_tx y) /\ plain (s_tx y)
      /\ tx_bytes (s_tx y) = tx_bytes (s_tx x)
      /\ verify_signature y = verify_signature x
      /\ stx_bytes y = stx_bytes x
      /\ (plain (s_tx x) -> y = x).
  Proof.
    intros x Hw Hd. exists (norm_stx x).
    assert (B : tx_bytes (norm_tx (s_tx x)) = tx_bytes (s_tx x)) by (unfold tx_bytes; rewrite ser_norm; reflexivity).
    assert (P : tx_public (norm_tx (s_tx x)) = tx_public (s_tx x)) by (destruct (s_tx x); reflexivity).
    assert (Ty : tx_type (norm_tx (s_tx x)) = tx_type (s_tx x)) by (destruct (s_tx x); reflexivity).
    split; [apply stx_roundtrip; assumption|].
    split; [reflexivity|]. split; [apply norm_content|]. split; [apply norm_plain|].
    split; [exact B|]. split; [|split].
    - unfold verify_signature. cbn [norm_stx s_tx s_sig]. rewrite P, B. reflexivity.
    - unfold stx_bytes, ser_stx, s_type. cbn [norm_stx s_tx s_sig]. rewrite Ty, ser_norm. reflexivity.
    - intros Hp. destruct x as [t s]. unfold norm_stx. cbn [s_tx s_sig] in *.
      rewrite norm_plain_id by exact Hp. reflexivity.
  Qed.
  (** C09 for whatever was received, of any size: passing a received transaction on preserves it, at
      every hop.  An election must not be nested as deep as the reader allows: an integer among its
      properties takes one level more when it is written. *)
  Theorem C09_forwarding_partial :
    forall p x, stx_from_bytes p = Ok x ->
    (s_type x = TElection -> forall v, cbor_from_slice p = Some v -> cdepth v <= 126) ->
    exists y, stx_from_bytes (stx_bytes x) = Ok y
      /\ s_sig y = s_sig x /\ content_agree (s_tx x) (s_tx y) /\ plain (s_tx y)
      /\ tx_bytes (s_tx y) = tx_bytes (s_tx x)
      /\ verify_signature y = verify_signature x
      /\ stx_bytes y = stx_bytes x
      /\ (plain (s_tx x) -> y = x).
  Proof. intros p x H Sh. destruct (decoded_good _ _ H Sh) as [A B]. apply C09_wire_roundtrip_partial; assumption. Qed.
  (** without the condition: if the forwarded bytes are read at all, they are read as the same transaction *)
  Theorem C09_forwarding_never_alters :
    forall p x y, stx_from_bytes p = Ok x -> stx_from_bytes (stx_bytes x) = Ok y ->
    s_sig y = s_sig x /\ content_agree (s_tx x) (s_tx y) /\ verify_signature y = verify_signature x.
  Proof.
    intros p x y H Y. rewrite (stored_again _ _ _ H Y).
    assert (B : tx_bytes (norm_tx (s_tx x)) = tx_bytes (s_tx x)) by (unfold tx_bytes; rewrite ser_norm; reflexivity).
    assert (P : tx_public (norm_tx (s_tx x)) = tx_public (s_tx x)) by (destruct (s_tx x); reflexivity).
    split; [reflexivity|]. split; [apply norm_content|]. unfold verify_signature. cbn [norm_stx s_tx s_sig]. rewrite P, B. reflexivity.
  Qed.
End Props.

(** ** Examples and counterexamples *)
#[local] Existing Instance Toy.

Example C07_example :
  tx_public (XVote (vote_tx x20 b1)) = Some (ed_public (key_of x20))
  /\ pk_of x20 <> ed_public (key_of x21).
Proof.
  split; [reflexivity|]. intros H. apply (f_equal (fun k => arr_l (sv k))) in H. vm_compute in H. discriminate.
Qed.
Example C08_example :
  forallb (fun x => cwf (ser_tx (s_tx x))) (scene_plain ++ scene_mix) = true.
Proof. vm_compute. reflexivity. Qed.
Example C09_example :
  forallb (fun x => cwf (ser_stx x) && Nat.leb (cdepth (ser_stx x)) 127) (scene_plain ++ scene_mix) = true.
Proof. vm_compute. reflexivity. Qed.

(** C09 refuted in full generality: an election whose properties are nested too deep is
    serialised, but the bytes are rejected by [from_bytes]. *)
Fixpoint deep (n : nat) : jval := match n with O => JNull | S n' => JArr [deep n'] end.
Definition deep_props : props := @mk_sub _ (nodup_keys rs_eqb) [(b1, @mk_sub _ jok (deep 130) eq_refl)] eq_refl.
Definition deep_election : ElectionTx :=
  mk_election EID (pk_of x01) [T x0a x01; T x0b x02] x02 [auth1] x01 None [ballot1] [contest0] deep_props.
Theorem C09_wire_roundtrip_refuted :
  exists x, cwf (ser_stx x) = true /\ validate true (ms_store ms_empty) x = Ok tt
    /\ stx_from_bytes (stx_bytes x) = Err tt.
Proof. exists (sgn x01 (XElection deep_election)). vm_compute. auto. Qed.

Print Assumptions C07_sign_verifies.
Print Assumptions C07_other_key_refused.
Print Assumptions C07_signed_by_declared_key.
Print Assumptions C07_accepted_signature_valid.
Print Assumptions C07_who_declares_a_key.
Print Assumptions C08_signed_bytes_pin_content.
Print Assumptions C08_types_separated.
Print Assumptions C08_helper_fields_unsigned.
Print Assumptions C08_signature_not_transferable.
Print Assumptions C09_wire_roundtrip_partial.
Print Assumptions C09_forwarding_partial.
Print Assumptions C09_forwarding_never_alters.
Print Assumptions C09_wire_roundtrip_refuted.
