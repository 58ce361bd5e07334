(** * Props_Keygen: C10 (slots and types), C11 (elections), C12-C14 (key generation). *)
From Verif Require Import Base BaseFacts Utf8 Cbor Ident BuildId IdentFacts Crypto Types Serde Store SpecStore
  StoreFacts Prost Validate ValidateFacts SpecValid ValidFacts ValidFacts2 ValidFacts3 SpecHist HistFacts Toy Scene.
From Coq Require Import Permutation ZifyBool ZifyNat ZifyN.
Open Scope list_scope.

(** number of distinct-keyed shares = number of trustees and every trustee has one *)
Lemma nodup_keys_NoDup {V} (l : list (byte * V)) : nodup_keys Byte.eqb l = true -> NoDup (map fst l).
Proof.
  induction l as [|[k v] l IH]; cbn [nodup_keys map fst]; [constructor|]. rewrite andb_true_iff, negb_true_iff.
  intros [A B]. constructor; [|auto]. intros X. apply (mem_key_in _ byte_eqb_eq) in X. congruence.
Qed.

Section Props.
  Context {C : Crypto}.

  (** C10 *)
  Theorem C10_accepted_in_own_slot :
    forall dbg s x, validate dbg s x = Ok tt -> id_type (s_id x) = tx_type (s_tx x).
  Proof. intros dbg s x V. apply validate_ok in V. exact (proj1 V). Qed.
  Theorem C10_ranges_are_typed :
    forall dbg l, history dbg l -> forall e t r, get_multiple (ms_store (ms_from l)) e t = Ok r ->
    forall x, In x r -> tx_type (s_tx x) = t.
  Proof.
    intros dbg l Hl e t r E x Hx. rewrite (holds_multiple _ _ _ _ (stored_holds l)) in E. injection E as <-.
    apply listed_in in Hx as (Hx & _ & <-). apply (proj1 (hist_stored dbg l x Hl)) in Hx.
    symmetry. exact (hist_typed _ _ _ Hl Hx).
  Qed.
  Theorem C10_conversions_never_panic :
    forall dbg l, history dbg l -> forall e r,
    (get_multiple (ms_store (ms_from l)) e TVote = Ok r ->
       exists vs, @map_res VError _ _ (into_typed as_vote) r = Ok vs)
    /\ (get_multiple (ms_store (ms_from l)) e TKeyGenPublicKey = Ok r ->
       exists ks, @map_res VError _ _ (into_typed as_pubkey) r = Ok ks)
    /\ (get_multiple (ms_store (ms_from l)) e TKeyGenCommitment = Ok r ->
       exists ks, @map_res VError _ _ (into_typed as_commitment) r = Ok ks)
    /\ (get_multiple (ms_store (ms_from l)) e TKeyGenShare = Ok r ->
       exists ks, @map_res VError _ _ (into_typed as_share) r = Ok ks)
    /\ (get_multiple (ms_store (ms_from l)) e TPartialDecryption = Ok r ->
       exists ks, @map_res VError _ _ (into_typed as_partial) r = Ok ks)
    /\ (get_multiple (ms_store (ms_from l)) e TMix = Ok r ->
       exists ks, @map_res VError _ _ (into_typed as_mix) r = Ok ks).
  Proof.
    intros dbg l Hl e r.
    assert (G : forall A (proj : Tx -> option A) t,
              (forall u, tx_type u = t -> exists a, proj u = Some a) ->
              get_multiple (ms_store (ms_from l)) e t = Ok r ->
              exists vs, @map_res VError _ _ (into_typed proj) r = Ok vs).
    { intros A proj t P E. pose proof (C10_ranges_are_typed dbg l Hl e t r E) as T. clear E.
      induction r as [|x r IH]; [eexists; reflexivity|].
      destruct (P (s_tx x) (T x (or_introl eq_refl))) as (a & Ha).
      destruct IH as (vs & IH); [intros y Hy; apply T; right; exact Hy|].
      cbn [map_res]. unfold into_typed at 1. rewrite Ha. cbn [or_panic bind]. rewrite IH. eexists. reflexivity. }
    repeat split; apply G; intros [] X; try discriminate X; eexists; reflexivity.
  Qed.

  (** C11: everything accepted satisfies the rule *)
  Theorem C11_accepted_elections_are_well_formed :
    forall dbg s x t, s_tx x = XElection t -> validate dbg s x = Ok tt ->
    el_id t = mk_id (id_election (el_id t)) TElection (arr_rep x00 16)
    /\ signed_by (el_authority t) x
    /\ (u8v (el_threshold t) <= N.of_nat (length (el_trustees t)))%N
    /\ (u8v (el_auth_threshold t) <= N.of_nat (length (el_authenticators t)))%N.
  Proof.
    intros dbg s x t Hx V. apply validate_ok in V as (_ & V1 & V2). rewrite Hx in V2. cbn [validate_tx] in V2.
    apply validate_election_iff in V2 as (A & B & D). split; [exact A|]. split.
    - apply (verify_signature_ok x tt) with (p := el_authority t) in V1; [exact V1|]. rewrite Hx. reflexivity.
    - split; [exact B|]. eapply N.le_trans; [exact D|]. apply N.mod_le. discriminate.
  Qed.
  (** C11: with fewer than 256 authenticators the rule is exact, whatever the store *)
  Theorem C11_acceptance_rule_partial :
    forall dbg s x t, s_tx x = XElection t -> length (el_authenticators t) < 256 ->
    (validate dbg s x = Ok tt <-> ok_election t /\ signed_by (el_authority t) x).
  Proof.
    intros dbg s x t Hx Hn. rewrite validate_ok, verify_signature_ok, Hx. cbn [validate_tx tx_public].
    rewrite validate_election_iff. unfold ok_election, signed_by.
    rewrite N.mod_small by lia. unfold s_id, s_type, tx_bytes. rewrite Hx. cbn [tx_id tx_type]. split.
    - intros (_ & A & B & D & F). auto.
    - intros ((A & B & D) & F). split; [rewrite A; reflexivity|]. split; [|auto]. intros p Hp. congruence.
  Qed.

  (** C12 *)
  Theorem C12_commitment_from_listed_trustee :
    forall dbg s L x t, holds s L -> s_tx x = XCommitment t -> validate dbg s x = Ok tt ->
    exists el, at_id L (kc_election t) (XElection el) /\ lists_trustee el (kc_trustee t) (kc_public t)
      /\ signed_by (kc_public t) x.
  Proof.
    intros dbg s L x t H Hx V. apply (validate_iff s L H) in V as (_ & V1 & V2). rewrite Hx in V1, V2.
    destruct V2 as (el & A & B). exists el. split; [exact A|]. split; [exact B|]. apply V1. reflexivity.
  Qed.
  Theorem C12_share_from_listed_trustee :
    forall dbg s L x t, holds s L -> s_tx x = XShare t -> validate dbg s x = Ok tt ->
    exists el, at_id L (ks_election t) (XElection el) /\ lists_trustee el (ks_trustee t) (ks_public t)
      /\ signed_by (ks_public t) x.
  Proof.
    intros dbg s L x t H Hx V. apply (validate_iff s L H) in V as (_ & V1 & V2). rewrite Hx in V1, V2.
    destruct V2 as (el & A & B & _). exists el. split; [exact A|]. split; [exact B|]. apply V1. reflexivity.
  Qed.
  Theorem C12_public_key_from_listed_trustee :
    forall dbg s L x t, holds s L -> s_tx x = XPublicKey t -> validate dbg s x = Ok tt ->
    exists el, at_id L (kp_election t) (XElection el) /\ lists_trustee el (kp_trustee t) (kp_public t)
      /\ signed_by (kp_public t) x.
  Proof.
    intros dbg s L x t H Hx V. apply (validate_iff s L H) in V as (_ & V1 & V2). rewrite Hx in V1, V2.
    destruct V2 as (el & A & B). exists el. split; [exact A|]. split; [exact B|]. apply V1. reflexivity.
  Qed.
  (** and these conditions with the type check are also sufficient *)
  Theorem C12_commitment_rule :
    forall dbg s L x t, holds s L -> s_tx x = XCommitment t ->
    (validate dbg s x = Ok tt <->
     id_type (kc_id t) = TKeyGenCommitment /\ signed_by (kc_public t) x /\ ok_commitment L t).
  Proof.
    intros dbg s L x t H Hx. rewrite (validate_iff s L H), Hx. unfold s_id, s_type. rewrite Hx.
    cbn [tx_id tx_type tx_public ok_tx]. split.
    - intros (A & B & D). auto.
    - intros (A & B & D). split; [exact A|]. split; [|exact D]. intros k Hk. congruence.
  Qed.
  Theorem C12_public_key_rule :
    forall dbg s L x t, holds s L -> s_tx x = XPublicKey t ->
    (validate dbg s x = Ok tt <->
     id_type (kp_id t) = TKeyGenPublicKey /\ signed_by (kp_public t) x /\ ok_pubkey L t).
  Proof.
    intros dbg s L x t H Hx. rewrite (validate_iff s L H), Hx. unfold s_id, s_type. rewrite Hx.
    cbn [tx_id tx_type tx_public ok_tx]. split.
    - intros (A & B & D). auto.
    - intros (A & B & D). split; [exact A|]. split; [|exact D]. intros k Hk. congruence.
  Qed.

  (** C13 *)
  Theorem C13_one_share_per_trustee :
    forall dbg s L x t el, holds s L -> s_tx x = XShare t -> validate dbg s x = Ok tt ->
    at_id L (ks_election t) (XElection el) -> NoDup (map tr_index (el_trustees el)) ->
    Permutation (map fst (sv (ks_shares t))) (map tr_index (el_trustees el)).
  Proof.
    intros dbg s L x t el H Hx V Hel N. apply (validate_iff s L H) in V as (_ & _ & V). rewrite Hx in V.
    destruct V as (el' & A & _ & Hlen & Hall).
    assert (el' = el) by (pose proof (at_id_fun s L H _ _ _ A Hel); congruence). subst el'.
    symmetry. apply NoDup_Permutation_bis.
    - exact N.
    - rewrite !map_length. lia.
    - intros i Hi. apply in_map_iff in Hi as (tr & <- & Htr). destruct (Hall tr Htr) as (sh & Hin).
      apply (in_map fst) in Hin. exact Hin.
  Qed.
  (** hence exactly one share for every trustee *)
  Theorem C13_unique_share :
    forall dbg s L x t el, holds s L -> s_tx x = XShare t -> validate dbg s x = Ok tt ->
    at_id L (ks_election t) (XElection el) -> NoDup (map tr_index (el_trustees el)) ->
    forall i, (exists tr, In tr (el_trustees el) /\ tr_index tr = i) <-> (exists! sh, In (i, sh) (sv (ks_shares t))).
  Proof.
    intros dbg s L x t el H Hx V Hel N i.
    pose proof (C13_one_share_per_trustee dbg s L x t el H Hx V Hel N) as P.
    pose proof (nodup_keys_NoDup _ (s_ok (ks_shares t))) as NK. split.
    - intros (tr & Htr & <-). assert (Hi : In (tr_index tr) (map fst (sv (ks_shares t)))).
      { eapply Permutation_in; [symmetry; exact P|]. apply in_map, Htr. }
      apply in_map_iff in Hi as ([j sh] & E & Hin). cbn in E. subst j. exists sh. split; [exact Hin|].
      intros sh' Hin'. clear - NK Hin Hin'. revert Hin Hin' NK. generalize (sv (ks_shares t)) (tr_index tr).
      induction l as [|[k v] l IH]; intros i [] [] N; try congruence; cbn [map fst] in N; inversion N as [|? ? A B]; subst.
      + exfalso. apply A. injection H as -> ->. apply (in_map fst) in H0. exact H0.
      + exfalso. apply A. injection H0 as -> ->. apply (in_map fst) in H. exact H.
      + eapply IH; eauto.
    - intros (sh & Hin & _). apply (in_map fst) in Hin. cbn [fst] in Hin.
      apply (Permutation_in _ P) in Hin. apply in_map_iff in Hin as (tr & E & Htr). eauto.
  Qed.

  (** C14 *)
  Theorem C14_encryption_key_is_unanimous :
    forall dbg s L x t, holds s L -> s_tx x = XEncryptionKey t -> validate dbg s x = Ok tt ->
    exists el, at_id L (ek_election t) (XElection el)
      /\ ek_authority t = el_authority el /\ signed_by (el_authority el) x
      /\ (forall tr, In tr (el_trustees el) ->
            exists y p, In y L /\ in_range (ek_election t) TKeyGenPublicKey y /\ s_tx y = XPublicKey p
              /\ kp_trustee p = tr_index tr /\ kp_public p = tr_public_key tr /\ kp_key p = ek_key t)
      /\ (forall y, In y L -> in_range (ek_election t) TKeyGenPublicKey y ->
            exists p, s_tx y = XPublicKey p /\ kp_key p = ek_key t).
  Proof.
    intros dbg s L x t H Hx V. apply (validate_iff s L H) in V as (_ & V1 & V2). rewrite Hx in V1, V2.
    destruct V2 as (el & pks & A & B & R & Hl & Hall & Hkey). exists el. split; [exact A|]. split; [exact B|].
    split; [rewrite <- B; apply V1; reflexivity|]. unfold range_is in R.
    split.
    - intros tr Htr. destruct (Hall tr Htr) as (p & Hp & E1 & E2).
      assert (Hin : In (XPublicKey p) (map s_tx (listed L (ek_election t) TKeyGenPublicKey)))
        by (rewrite R; apply in_map, Hp).
      apply in_map_iff in Hin as (y & Hy & Hin). apply listed_in in Hin as (Hin & I1 & I2).
      exists y, p. unfold in_range. auto 10.
    - intros y Hy [I1 I2].
      assert (Hin : In (s_tx y) (map XPublicKey pks)) by (rewrite <- R; apply in_map, listed_in; auto).
      apply in_map_iff in Hin as (p & E & Hp). exists p. auto.
  Qed.
  Theorem C14_encryption_key_rule :
    forall dbg s L x t, holds s L -> s_tx x = XEncryptionKey t ->
    (validate dbg s x = Ok tt <->
     id_type (ek_id t) = TEncryptionKey /\ signed_by (ek_authority t) x /\ ok_enckey L t).
  Proof.
    intros dbg s L x t H Hx. rewrite (validate_iff s L H), Hx. unfold s_id, s_type. rewrite Hx.
    cbn [tx_id tx_type tx_public ok_tx]. split.
    - intros (A & B & D). auto.
    - intros (A & B & D). split; [exact A|]. split; [|exact D]. intros k Hk. congruence.
  Qed.
End Props.

(** ** Examples *)
#[local] Existing Instance Toy.
(** the plain scene is a history, in both build modes: so every theorem above about accepted
    transactions and histories has instances of every kind *)
Example scene_plain_history : forall dbg, history dbg scene_plain.
Proof. intros []; apply run_history; vm_compute; reflexivity. Qed.
Example scene_mix_history : forall dbg, history dbg scene_mix.
Proof. intros []; apply run_history; vm_compute; reflexivity. Qed.
Example C10_example :
  match get_multiple (ms_store (ms_from scene_plain)) EID TVote with Ok [_; _] => true | _ => false end = true.
Proof. vm_compute. reflexivity. Qed.
Example C11_example : validate true (ms_store ms_empty) (sgn x01 (XElection (election None))) = Ok tt
  /\ length (el_authenticators (election None)) < 256.
Proof. split; [vm_compute; reflexivity|cbn; lia]. Qed.
Example C12_C13_C14_examples :
  validate true (ms_store (ms_from (firstn 1 scene_plain))) (commitment x0a x01) = Ok tt
  /\ validate true (ms_store (ms_from (firstn 3 scene_plain))) (share x0a x01) = Ok tt
  /\ validate true (ms_store (ms_from (firstn 5 scene_plain))) (pubkey x0a x01) = Ok tt
  /\ validate true (ms_store (ms_from (firstn 7 scene_plain))) enckey = Ok tt
  /\ NoDup (map tr_index (el_trustees (election None))).
Proof.
  split; [vm_compute; reflexivity|]. split; [vm_compute; reflexivity|]. split; [vm_compute; reflexivity|].
  split; [vm_compute; reflexivity|]. cbn. repeat constructor; cbn; intuition discriminate.
Qed.
(** a trustee that is not listed, a wrong key, a missing share, a disagreeing key are refused *)
Example C12_C13_C14_refusals :
  let m n := ms_store (ms_from (firstn n scene_plain)) in
  validate true (m 1) (commitment x0c x01) = Err (TrusteeDoesNotExist x01)
  /\ validate true (m 1) (commitment x0a x03) = Err (TrusteeDoesNotExist x03)
  /\ validate true (m 1)
       (sgn x0a (XShare (mk_share (share_build_id EID x01) EID x01 (pk_of x0a)
          (@mk_sub _ (nodup_keys Byte.eqb) [(x01, [xaa]); (x03, [xbb])] eq_refl)))) = Err (TrusteeShareMissing x01)
  /\ validate true (m 6) enckey = Err WrongNumberOfPublicKeyTransactions
  /\ validate true (m 7) (sgn x01 (XEncryptionKey (mk_enckey (enckey_build_id EID) EID (pk_of x01) (any CNull))))
     = Err (MismatchedEncryptionKey x01).
Proof. repeat split; vm_compute; reflexivity. Qed.

(** C11 refuted as an equivalence: 256 authenticators and threshold 1 satisfy the rule but are
    refused, because the count is cast to u8 *)
Definition many_auth_election : ElectionTx :=
  mk_election EID (pk_of x01) [T x0a x01] x01 (repeat auth1 256) x01 None [ballot1] [contest0] no_props.
Theorem C11_acceptance_rule_refuted :
  exists x t, s_tx x = XElection t /\ ok_election t /\ signed_by (el_authority t) x
    /\ validate true (ms_store ms_empty) x = Err InvalidAuthThreshold.
Proof.
  exists (sgn x01 (XElection many_auth_election)), many_auth_election.
  split; [reflexivity|]. split; [|split; [apply toy_ed_sign_verifies|vm_compute; reflexivity]].
  split; [reflexivity|]. split; vm_compute; discriminate.
Qed.

Print Assumptions C10_accepted_in_own_slot.
Print Assumptions C10_ranges_are_typed.
Print Assumptions C10_conversions_never_panic.
Print Assumptions C11_accepted_elections_are_well_formed.
Print Assumptions C11_acceptance_rule_partial.
Print Assumptions C11_acceptance_rule_refuted.
Print Assumptions C12_commitment_from_listed_trustee.
Print Assumptions C12_share_from_listed_trustee.
Print Assumptions C12_public_key_from_listed_trustee.
Print Assumptions C12_commitment_rule.
Print Assumptions C12_public_key_rule.
Print Assumptions C13_one_share_per_trustee.
Print Assumptions C13_unique_share.
Print Assumptions C14_encryption_key_is_unanimous.
Print Assumptions C14_encryption_key_rule.
