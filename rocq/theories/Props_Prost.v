(** * Props_Prost: C49 (the encoding of selections). *)
From Verif Require Import Base BaseFacts Utf8 Cbor Ident BuildId Crypto Types Serde Prost SpecProst ProstFacts Store Validate SpecValid
  ValidFacts ValidFacts2 ValidFacts3 Encrypt Toy Scene.
From Coq Require Import Strings.String ZifyBool ZifyNat ZifyN.
Open Scope list_scope.

(** ** C49 *)
(** Rust strings are shorter than 2^63 bytes *)
Definition fits (s : Selection) : Prop := (N.of_nat (List.length (sv (sel_text s))) < 2 ^ 64)%N.

Theorem C49_roundtrip : forall s, fits s -> sel_decode (sel_encode s) = Some s.
Proof.
  intros s F. rewrite <- (app_nil_r (sel_encode s)), sel_decode_merge, sel_encode_merge by exact F.
  change (merge_bytes ?x []) with (Some x). f_equal. destruct s as [w n t]. cbn [sel_write_in sel_score sel_text sel_default].
  f_equal.
  - destruct w; reflexivity.
  - destruct (uv n =? 0)%N eqn:E; [|reflexivity]. apply N.eqb_eq in E. apply u_ext. rewrite E. reflexivity.
  - destruct (sv t) eqn:E; [|reflexivity]. apply sub_ext. rewrite E. reflexivity.
Qed.
(** different selections have different encodings *)
Theorem C49_injective : forall s s', fits s -> fits s' -> sel_encode s = sel_encode s' -> s = s'.
Proof.
  intros s s' F F' E. apply (f_equal sel_decode) in E. rewrite !C49_roundtrip in E by assumption. congruence.
Qed.
(** on every byte string the decoder terminates with exactly the verdict of the wire format: it
    accepts the messages and nothing else, and the result is what the message means *)
Definition unset : Selection := mk_selection false (u_of 4 0) (lit "").   (* what absent fields mean: no write-in, 0, the empty text *)
Theorem C49_decoder_exact : forall l s,
  sel_decode l = Some s <-> exists fs, message l fs /\ s = meaning unset fs.
Proof.
  assert (E : unset = sel_default) by (unfold unset, sel_default; f_equal; apply sub_ext; reflexivity).
  rewrite E. apply sel_decode_iff.
Qed.
(** the fuel that makes the decoder terminate is never what rejects a message *)
Theorem C49_fuel_irrelevant : forall fuel s l, List.length l <= fuel ->
  sel_merge_all fuel s l = sel_merge_all (List.length l) s l.
Proof. intros. apply merge_all_fuel; lia. Qed.
(** the decoder accepts several byte strings for one selection (no canonical form): a re-encoded
    selection need not have the bytes the voter encrypted *)
Theorem C49_not_canonical : exists l s, sel_decode l = Some s /\ sel_encode s <> l.
Proof. exists [x08; x00], sel_default. split; [reflexivity|discriminate]. Qed.

Section Vote.
  Context {C : Crypto} {R : Type} (eg_encrypt : EGPublicKey -> R -> bytes -> Ciphertext * R).

  Lemma encrypt_nth key : forall vote rng i s, nth_error vote i = Some s ->
    exists r, nth_error (fst (encrypt_vote eg_encrypt key vote rng)) i = Some (fst (eg_encrypt key r (sel_encode s))).
  Proof.
    induction vote as [|v vote IH]; intros rng i s H; [destruct i; discriminate|]. cbn [encrypt_vote].
    destruct (eg_encrypt key rng (sel_encode v)) as [ct rng'] eqn:E. specialize (IH rng').
    destruct (encrypt_vote eg_encrypt key vote rng') as [cts rng''] eqn:E'. destruct i as [|i].
    - injection H as <-. exists rng. cbn. rewrite E. reflexivity.
    - apply IH in H. destruct H as (r & H). exists r. exact H.
  Qed.
  Lemma encrypt_length key : forall vote rng, List.length (fst (encrypt_vote eg_encrypt key vote rng)) = List.length vote.
  Proof.
    induction vote as [|v vote IH]; intros rng; [reflexivity|]. cbn [encrypt_vote].
    destruct (eg_encrypt key rng (sel_encode v)) as [ct rng']. specialize (IH rng').
    destruct (encrypt_vote eg_encrypt key vote rng') as [cts rng'']. cbn in *. congruence.
  Qed.

  (** A vote encrypted by [encrypt_vote] is decrypted by [decrypt_vote] to the same selections,
      whenever the recorded shares open the ciphertexts ([opening], the law of the cryptosystem:
      shares that are good for a ciphertext open it to the bytes that were encrypted). *)
  Theorem C49_vote_survives :
    forall (good : Ciphertext -> list (byte * PubkeyProof * DecryptShare) -> Prop) el pks parts key vote rng row,
    (forall r m l, good (fst (eg_encrypt key r m)) l ->
       threshold_decrypt (el_threshold el) (fst (eg_encrypt key r m)) l = Some m) ->
    Forall fits vote -> fst (encrypt_vote eg_encrypt key vote rng) = row ->
    (forall i ct, nth_error row i = Some ct -> exists l, shares_for i pks parts (el_trustees el) l /\ good ct l) ->
    forall sels, decrypt_vote row (el_threshold el) (el_trustees el) pks parts = Ok sels <-> sels = vote.
  Proof.
    intros good el pks parts key vote rng row Law F <- Sh sels.
    assert (D : decrypt_vote (fst (encrypt_vote eg_encrypt key vote rng)) (el_threshold el) (el_trustees el) pks parts = Ok vote).
    { apply decrypt_vote_iff. split; [symmetry; apply encrypt_length|]. intros i ct s Hc Hs.
      destruct (Sh i ct Hc) as (l & S1 & G). destruct (encrypt_nth key vote rng i s Hs) as (r & E). rewrite Hc in E. injection E as ->.
      exists l, (sel_encode s). split; [exact S1|]. split; [apply Law, G|]. apply C49_roundtrip.
      rewrite Forall_forall in F. apply F. eapply nth_error_In, Hs. }
    rewrite D. split; [intros X; congruence|intros ->; reflexivity].
  Qed.
End Vote.

(** ** a concrete case *)
Definition sel_full : Selection := mk_selection true (u_of 4 4000000000) (lit "Zoë ✓").
Example C49_case : fits sel_full
  /\ sel_encode sel_full = [x08; x01; x10; x80; xd0; xac; xf3; x0e; x1a; x08; x5a; x6f; xc3; xab; x20; xe2; x9c; x93]
  /\ sel_decode (sel_encode sel_full) = Some sel_full.
Proof. split; [reflexivity|]. split; reflexivity. Qed.
(** an unknown field (number 4, a group holding a varint), then the text twice: the last one counts *)
Example C49_case_unknown :
  sel_decode [x23; x08; x01; x24; x1a; x01; x61; x1a; x01; x62] = Some (mk_selection false (u_of 4 0) (lit "b"))
  /\ sel_decode [x23; x08; x01] = None /\ sel_decode [x1a; x01; xff] = None /\ sel_decode [x1a; x05; x61] = None.
Proof. repeat split. Qed.

Section Case.
  Local Existing Instance Toy.
  Let toy_enc (key : EGPublicKey) (r : N) (m : bytes) : Ciphertext * N := (ct_of m r, (r + 1)%N).
  Example C49_vote_case :
    let vote := [sel_full; sel (lit "yes"); sel_default] in
    let row := fst (encrypt_vote toy_enc egk vote 5%N) in
    let part k i := mk_partial (partial_build_id EID v20 (n32 0) (n16 0) i) EID v20 (n16 0) (n32 0) i (pk_of k)
                      (map (fun c => any (toy_share (sv (proof_of i)) (sv c))) row) in
    let pk k i := mk_pubkey (pubkey_build_id EID i) EID i (pk_of k) egk (proof_of i) in
    match decrypt_vote row x02 (el_trustees (election None)) [pk x0a x01; pk x0b x02] [part x0a x01; part x0b x02] with
    | Ok l => sels_eqb l vote | _ => false end = true.
  Proof. vm_compute. reflexivity. Qed.
End Case.

Print Assumptions C49_roundtrip.
Print Assumptions C49_injective.
Print Assumptions C49_decoder_exact.
Print Assumptions C49_fuel_irrelevant.
Print Assumptions C49_not_canonical.
Print Assumptions C49_vote_survives.
