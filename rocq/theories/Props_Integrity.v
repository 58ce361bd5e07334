(** * Props_Integrity: C65 (decryptions show what was encrypted), C66 (key proofs and commitments). *)
From Verif Require Import Base BaseFacts Utf8 Cbor Ident BuildId Crypto Types Serde Store SpecStore StoreFacts Prost SpecProst Props_Prost
  Validate ValidateFacts SpecValid ValidFacts ValidFacts2 ValidFacts3 SpecHist HistFacts SpecMix MixFacts SpecDecrypt DecryptFacts
  Encrypt Trustee Lagrange SpecThreshold ThresholdFacts Props_Threshold SpecIntegrity IntegrityFacts.
From Coq Require Import ZifyBool ZifyNat ZifyN Sorting.Permutation.
Open Scope list_scope.

Section Props.
  Context {C : Crypto} {TC : TCrypto} {K : Fld} {M : Mdl} (S : threshold_scheme K M) (SP : sound_proofs S).

  Lemma N_le_of a b : a <= N.to_nat b -> (N.of_nat a <= b)%N.
  Proof. lia. Qed.

  (** ** C65: without mixnet, a recorded decryption of a vote shows the selections encrypted in it,
      whoever posted the partial decryptions and the decryption *)
  Theorem C65_vote_shown : forall dbg l e el P x d v ev vote,
    history dbg l -> keyed S SP l e el P -> el_mix_config el = None ->
    In x l -> s_tx x = XDecryption d -> dc_election d = e ->
    at_id l (dc_upstream d) (XVote v) -> first_with (fun ev => ev_contest ev = dc_contest d) (vt_votes v) ev ->
    row_of S P sel_encode vote (ev_selections ev) -> Forall fits vote ->
    dc_vote d = vote.
  Proof.
    intros dbg l e el P x d v ev vote Hl KD Mc Hx Tx Ee Hv Hev En Fi.
    destruct (hist_accepted dbg l x Hl Hx) as (p & q & E & Hp & _ & V).
    apply (decryption_accepted dbg _ _ x d (stored_holds p) Tx) in V as (el' & row' & pks & parts & Hel & _ & Hrow & _).
    assert (Q : row_at l el (dc_upstream d) (dc_index d) (dc_contest d) (ev_selections ev)).
    { apply (row_at_stored dbg p) in Hrow; [|exact Hp]. apply (row_at_mono p (x :: q)) in Hrow. rewrite <- E in Hrow.
      destruct Hrow as [(A & B & D & v' & ev' & R & _)|(A & _ & m & R & _)].
      - left. split; [exact A|]. split; [exact Mc|]. split; [exact D|]. exists v, ev. auto.
      - pose proof (history_at_id_fun dbg l _ _ _ Hl Hv R) as X. discriminate X. }
    eapply (decryption_shown S SP dbg l e el P x d); eassumption.
  Qed.

  (** with a mixnet: for each recorded mix there is one arrangement of the votes it covers, and every
      recorded decryption of a row of the mix shows the vote at that place *)
  Theorem C65_mixed_vote_shown : forall dbg l e el P m vs votes,
    reencrypting S -> history dbg l -> keyed S SP l e el P -> at_id l (mx_id m) (XMix m) -> mx_election m = e ->
    recorded_votes l (mx_votes m) vs ->
    Forall2 (row_of S P sel_encode) votes (rows_of (mx_contest m) vs) -> Forall (Forall fits) votes ->
    exists shown, Permutation votes shown
      /\ forall x d, In x l -> s_tx x = XDecryption d -> dc_election d = e -> dc_upstream d = mx_id m ->
           nth_error shown (N.to_nat (uv (dc_index d))) = Some (dc_vote d).
  Proof.
    intros dbg l e el P m vs votes Re Hl KD Hm Ee Hv En Fi.
    destruct (mix_reencrypts S dbg l P Re Hl m Hm) as (vs' & R & G).
    { intros k A. rewrite Ee in A. exact (kd_key _ _ _ _ _ _ KD k A). }
    rewrite (recorded_fun dbg l _ _ _ Hl R Hv) in G. destruct (G votes En) as (shown & Pm & Fs).
    exists shown. split; [exact Pm|]. intros x d Hx Tx Ed Eu.
    destruct (hist_accepted dbg l x Hl Hx) as (p & q & E & Hp & _ & V).
    apply (decryption_accepted dbg _ _ x d (stored_holds p) Tx) in V as (el' & row & pks & parts & Hel & _ & Hrow & _).
    apply (row_at_stored dbg p) in Hrow; [|exact Hp]. apply (row_at_mono p (x :: q)) in Hrow. rewrite <- E in Hrow.
    assert (el' = el).
    { assert (A : at_id l e (XElection el')).
      { rewrite <- Ed. rewrite E. apply at_id_mono. apply (at_id_stored dbg p); assumption. }
      pose proof (history_at_id_fun dbg l _ _ _ Hl A (kd_election _ _ _ _ _ _ KD)) as X. injection X as ->. reflexivity. }
    subst el'. pose proof Hrow as Hrow'.
    destruct Hrow as [(A & B & D & v & ev & Rv & _)|(A & B & m' & Rv & F1 & F2 & F3)].
    { rewrite Eu in Rv. pose proof (history_at_id_fun dbg l _ _ _ Hl Hm Rv) as X. discriminate X. }
    rewrite Eu in Rv. pose proof (history_at_id_fun dbg l _ _ _ Hl Hm Rv) as X. injection X as <-.
    assert (Len : List.length shown = List.length (mx_out m)) by exact (forall2_len _ _ _ Fs).
    destruct (nth_error shown (N.to_nat (uv (dc_index d)))) as [vote|] eqn:E2.
    2:{ apply nth_error_None in E2. assert (N.to_nat (uv (dc_index d)) < List.length (mx_out m)) by (apply nth_error_Some; congruence). lia. }
    f_equal. symmetry. eapply (decryption_shown S SP dbg l e el P x d); try eassumption.
    - exact (forall2_nth _ _ _ Fs _ _ _ E2 F3).
    - rewrite Forall_forall in Fi. apply Fi. eapply Permutation_in; [symmetry; exact Pm|]. eapply nth_error_In, E2.
  Qed.

  (** when every row of the mix has a recorded decryption, the decryptions are the votes in some order *)
  Theorem C65_outcome : forall dbg l e el P m vs votes ds,
    reencrypting S -> history dbg l -> keyed S SP l e el P -> at_id l (mx_id m) (XMix m) -> mx_election m = e ->
    recorded_votes l (mx_votes m) vs ->
    Forall2 (row_of S P sel_encode) votes (rows_of (mx_contest m) vs) -> Forall (Forall fits) votes ->
    List.length ds = List.length (mx_out m) ->
    (forall i d, nth_error ds i = Some d -> (exists x, In x l /\ s_tx x = XDecryption d) /\ dc_election d = e
       /\ dc_upstream d = mx_id m /\ N.to_nat (uv (dc_index d)) = i) ->
    Permutation votes (map dc_vote ds).
  Proof.
    intros dbg l e el P m vs votes ds Re Hl KD Hm Ee Hv En Fi Len Hd.
    destruct (C65_mixed_vote_shown dbg l e el P m vs votes Re Hl KD Hm Ee Hv En Fi) as (shown & Pm & Hs).
    replace (map dc_vote ds) with shown; [exact Pm|]. apply nth_ext_error. intros i. rewrite nth_error_map.
    destruct (nth_error ds i) as [d|] eqn:E; cbn [option_map].
    - destruct (Hd i d E) as ((x & X1 & X2) & D1 & D2 & D3). rewrite <- D3. apply (Hs x d); assumption.
    - apply nth_error_None. apply nth_error_None in E. apply Permutation_length in Pm.
      assert (Lo : List.length (mx_out m) = List.length votes).
      { destruct (mix_reencrypts S dbg l P Re Hl m Hm) as (vs' & R & G).
        { intros k A. rewrite Ee in A. exact (kd_key _ _ _ _ _ _ KD k A). }
        destruct (G votes) as (sh & P1 & F1).
        { rewrite (recorded_fun dbg l _ _ _ Hl R Hv). assumption. }
        apply forall2_len in F1. apply Permutation_length in P1. congruence. }
      lia.
  Qed.

  (** the keys of an honest ceremony belong to one polynomial, so that the theorems above apply *)
  Theorem C65_honest_keys : forall (DH : dh_agrees) (Op : gcm_opens) (Sc : scalar_faithful) T k e published L el,
    ceremony T k -> honest_shares T e published -> at_id L e (XElection el) -> el_threshold el = k ->
    (forall y x, In y L -> in_range e TKeyGenPublicKey y -> s_tx y = XPublicKey x ->
       exists p l pk, In p T /\ kp_trustee x = tr_index (fst p) /\ sent_to T published (tr_index (fst p)) l
         /\ generate_public_key (fst p) (snd p) (all_keys T e) (all_commitments T e) l e = Ok (pk, kp_proof x)) ->
    (forall x, at_id L (slot0 e TEncryptionKey) (XEncryptionKey x) ->
       exists p l pf, In p T /\ sent_to T published (tr_index (fst p)) l
         /\ generate_public_key (fst p) (snd p) (all_keys T e) (all_commitments T e) l e = Ok (ek_key x, pf)) ->
    exists P, keyed S SP L e el P.
  Proof.
    intros DH Op Sc T k e published L el CE HS Hel Ek Hp Hk. exists (joint S T e). pose proof (ce_quorum _ _ CE) as Q. split.
    - exact Hel.
    - rewrite Ek. apply N_le_of. exact (joint_length S T k e CE).
    - rewrite Ek. apply Q.
    - intros y x Hy Ry Ty. destruct (Hp y x Hy Ry Ty) as (p & l & pk & I & E & St & G).
      destruct (party_ok S DH Op Sc T k e CE published HS p l I St) as (pa & P & Se & Pk).
      unfold generate_public_key in G. rewrite P in G. cbn [bind] in G. injection G as _ G.
      rewrite <- G, (sp_honest S SP), Se, E. reflexivity.
    - intros x Hx. destruct (Hk x Hx) as (p & l & pf & I & St & G).
      destruct (party_ok S DH Op Sc T k e CE published HS p l I St) as (pa & P & Se & Pk).
      unfold generate_public_key in G. rewrite P in G. cbn [bind] in G. injection G as G _.
      rewrite <- G, Pk. reflexivity.
  Qed.

  (** ** C66: only the proof of a trustee who follows the protocol is known to fit the commitments *)
  Theorem C66_honest_proof_partial : forall (DH : dh_agrees) (Op : gcm_opens) (Sc : scalar_faithful) T k e published cs x p l pk,
    ceremony T k -> honest_shares T e published ->
    map (fun c => (kc_trustee c, kc_commitment c)) cs = all_commitments T e ->
    In p T -> kp_trustee x = tr_index (fst p) -> sent_to T published (tr_index (fst p)) l ->
    generate_public_key (fst p) (snd p) (all_keys T e) (all_commitments T e) l e = Ok (pk, kp_proof x) ->
    fits_commitments S SP cs x.
  Proof.
    intros DH Op Sc T k e published cs x p l pk CE HS Hc I E St G.
    destruct (party_ok S DH Op Sc T k e CE published HS p l I St) as (pa & P & Se & Pk).
    unfold generate_public_key in G. rewrite P in G. cbn [bind] in G. injection G as _ G.
    unfold fits_commitments. rewrite <- G, (sp_honest S SP), Se, E.
    assert (A : forall (h : KeygenCommitment -> @Lagrange.G K M) cs, gsum (fun c => h (kc_commitment c)) cs = gsum (fun c => h (snd c)) (map (fun c => (kc_trustee c, kc_commitment c)) cs)).
    { intros h cs0. induction cs0 as [|c0 cs0 IH]; [reflexivity|]. cbn [map gsum snd]. rewrite IH. reflexivity. }
    rewrite (A (fun c => geval (ts_com S c) (ts_pt S (u8v (tr_index (fst p))))) cs), Hc. unfold joint. rewrite psum_eval, <- gsum_smul.
    unfold all_commitments. clear. induction T as [|q T IH]; [reflexivity|]. cbn [map gsum snd].
    rewrite IH, com_of, geval_map. reflexivity.
  Qed.
End Props.

(** ** a complete election over the instance of ToyE: three trustees, threshold two, two mixes *)
From Verif Require Import Toy ToyT ToyE Scene.
From Coq Require Strings.String.
Import String.StringSyntax.
Section Case.
  Local Existing Instance ToyE.
  Local Existing Instance ToyET.
  Local Existing Instance Fq.
  Local Existing Instance Gq.

  Lemma e_sp_share : forall sh pf ct, @share_verify ToyE sh pf ct = true ->
    exists x, vc (sv pf) = qmul x (fq_of 1) /\ vc (sv sh) = qmul x (ct1 (sv ct)).
  Proof.
    intros sh pf ct H. exists (vc (sv pf)). split; [symmetry; apply qmul_1|]. apply sub_ext, N.eqb_eq. exact H.
  Qed.
  Lemma e_sp_honest : forall p, vc (sv (@tp_proof ToyE ToyET p)) = qmul (pt_secret p) (fq_of 1).
  Proof. intros p. rewrite qmul_1. apply vc_cv. Qed.
  Lemma e_sp_combine : forall (k : byte) (ct : Ciphertext) (l : list (byte * PubkeyProof * DecryptShare)) m, threshold_decrypt k ct l = Some m ->
    exists l', incl l' l /\ NoDup (map (fun x => fst (fst x)) l') /\ (u8v k <= N.of_nat (List.length l'))%N
      /\ (forall i pf sh, In (i, pf, sh) l' -> share_verify sh pf ct = true)
      /\ q_open (sv ct) (gsum (fun x => smul (basis q_pt f0 (map (fun y => u8v (fst (fst y))) l') (u8v (fst (fst x))))
                                         (vc (sv (snd x)))) l') = Some m.
  Proof.
    intros k ct l m H. exists l. split; [apply incl_refl|]. cbn [threshold_decrypt ToyE] in H.
    match type of H with (if ?c then _ else _) = _ => destruct c eqn:E; [|discriminate H] end.
    apply andb_prop in E as [E E3]. apply andb_prop in E as [E1 E2].
    split; [apply nodupb_iff; exact E2|]. split; [apply N.leb_le; exact E1|]. split; [|exact H].
    intros i pf sh I. rewrite forallb_forall in E3. exact (E3 (i, pf, sh) I).
  Qed.
  Definition toy_proofs : @sound_proofs ToyE ToyET Fq Gq toy_scheme :=
    @Build_sound_proofs ToyE ToyET Fq Gq toy_scheme (fun pf => vc (sv pf)) e_sp_honest e_sp_share e_sp_combine.

  (** ** the transactions *)
  Definition sgnE (k : byte) (t : Tx) : STx := mk_stx t (ed_sign (key_of k) (tx_bytes t)).
  Definition pkE (k : byte) : PublicKey := any (key_of k).
  Definition el3 : ElectionTx :=
    mk_election e3 (pkE x01) (map fst T3) x02 [] x00 (Some mixcfg) [ballot1] [contest0] no_props.
  Definition who3 (i : byte) : byte := match i with x01 => x0a | x02 => x0b | _ => x0c end.
  Definition comtx3 (p : Trustee * ed_secret) : CommitmentTx :=
    let i := tr_index (fst p) in
    mk_commitment (commitment_build_id e3 i) e3 i (tr_public_key (fst p)) (x25519_public (snd p) e3) (keygen_commitment (fst p) (snd p) e3).
  Definition com3 (p : Trustee * ed_secret) : STx := sgnE (who3 (tr_index (fst p))) (XCommitment (comtx3 p)).
  Definition no_shares : imap Byte.eqb bytes := @mk_sub _ (nodup_keys Byte.eqb) [] eq_refl.
  Definition shares3 (p : Trustee * ed_secret) : imap Byte.eqb bytes :=
    match @generate_shares ToyE ToyET TrError (fst p) (fun n => arr_rep (u8_of (N.of_nat n)) 12) (snd p) (all_keys T3 e3) e3 (all_commitments T3 e3) with
    | Ok m => m | _ => no_shares end.
  Definition sha3 (p : Trustee * ed_secret) : STx :=
    let i := tr_index (fst p) in
    sgnE (who3 i) (XShare (mk_share (share_build_id e3 i) e3 i (tr_public_key (fst p)) (shares3 p))).
  Definition gpk3 (p : Trustee * ed_secret) : EGPublicKey * PubkeyProof :=
    match generate_public_key (fst p) (snd p) (all_keys T3 e3) (all_commitments T3 e3) (inbox (tr_index (fst p))) e3 with
    | Ok x => x | _ => (any CNull, any CNull) end.
  Definition pubtx3 (p : Trustee * ed_secret) : PublicKeyTx :=
    let i := tr_index (fst p) in mk_pubkey (pubkey_build_id e3 i) e3 i (tr_public_key (fst p)) (fst (gpk3 p)) (snd (gpk3 p)).
  Definition pub3 : list PublicKeyTx := map pubtx3 T3.
  Definition key3 : EGPublicKey := fst (gpk3 (tt3 x0a x01)).
  Definition row3 (k : byte) (v : list Selection) : list Ciphertext := fst (encrypt_vote e_encrypt key3 v (N.to_nat (u8v k))).
  Definition votetx3 (k : byte) (v : list Selection) : VoteTx :=
    mk_vote (vote_build_id e3 (key_of k)) e3 b1 [mk_encvote (n32 0) (row3 k v)] (pkE k) [].
  Definition vote3 (k : byte) (v : list Selection) : STx := sgnE k (XVote (votetx3 k v)).
  Definition yes3 : list Selection := [sel (lit "yes"); sel (lit "maybe")].
  Definition no3 : list Selection := [sel (lit "no")].
  Definition ids3 : list Identifier := [vote_build_id e3 (key_of x20); vote_build_id e3 (key_of x21)].
  Definition shuffled (i m : byte) (ins : list (list Ciphertext)) : list (list Ciphertext) * ShuffleProof :=
    match @shuffle ToyE ToyET (mix_seed (n32 0) (n32 0) m i) 2 ins key3 [x2a] with Some x => x | None => ([], any CNull) end.
  Definition mix3 (i m : byte) (prev : option Identifier) (ins : list (list Ciphertext)) : MixTx :=
    mk_mix (mix_build_id e3 (n32 0) (n32 0) m i) e3 prev i (pkE (who3 i)) m (n32 0) (n32 0) ids3 (fst (shuffled i m ins)) (snd (shuffled i m ins)).
  Definition mixA : MixTx := mix3 x01 x00 None [row3 x20 yes3; row3 x21 no3].
  Definition mixB : MixTx := mix3 x02 x01 (Some (mx_id mixA)) (mx_out mixA).
  Definition pid3 : Identifier := mx_id mixB.
  (** partial decryption of row [j] of the second mix *)
  Definition part (i : byte) (j : nat) : STx :=
    let shs := flat_map (fun p => if Byte.eqb (tr_index (fst p)) i then ask p (nth j (mx_out mixB) []) else []) T3 in
    sgnE (who3 i) (XPartial (mk_partial (partial_build_id e3 pid3 (n32 0) (n16 (N.of_nat j)) i) e3 pid3 (n16 (N.of_nat j)) (n32 0) i (pkE (who3 i)) shs)).
  Definition dec3 (j : nat) (ts : list byte) (v : list Selection) : DecryptionTx :=
    mk_decryption (decryption_build_id e3 pid3 (n32 0) (n16 (N.of_nat j))) e3 pid3 (n16 (N.of_nat j)) (n32 0) ts v.
  Definition start3 (pubs : list PublicKeyTx) : list STx :=
    [sgnE x01 (XElection el3)] ++ map com3 T3 ++ map sha3 T3 ++ map (fun x => sgnE (who3 (kp_trustee x)) (XPublicKey x)) pubs
    ++ [sgnE x01 (XEncryptionKey (mk_enckey (enckey_build_id e3) e3 (pkE x01) key3)); vote3 x20 yes3; vote3 x21 no3;
        sgnE x01 (XVotingEnd (mk_votingend (votingend_build_id e3) e3 (pkE x01)));
        sgnE x0a (XMix mixA); sgnE x0b (XMix mixB)].
  Definition all3 : list STx :=
    start3 pub3 ++ [part x01 0; part x03 0; part x02 1; part x03 1;
                    sgnE x00 (XDecryption (dec3 0 [x01; x03] yes3)); sgnE x00 (XDecryption (dec3 1 [x03; x02] no3))].
  Definition P3 : list (@F Fq) := joint toy_scheme T3 e3.
  Lemma key3_is : key3 = ts_key toy_scheme (key_point toy_scheme P3).
  Proof. apply sub_ext. apply cval_eqb_eq. vm_compute. reflexivity. Qed.
  Definition proofs_fit (P : list fq) (l : list STx) : bool :=
    forallb (fun y => match s_tx y with
                      | XPublicKey x => (sv (vc (sv (kp_proof x))) =? sv (qmul (@eval Fq P (q_pt (u8v (kp_trustee x)))) (fq_of 1)))%N
                      | XEncryptionKey k => cval_eqb (sv (ek_key k)) (sv key3)
                      | _ => true end) l.
  Lemma proofs_fit_keyed l : at_id l e3 (XElection el3) -> proofs_fit P3 l = true -> keyed toy_scheme toy_proofs l e3 el3 P3.
  Proof.
    intros A H. unfold proofs_fit in H. rewrite forallb_forall in H. split; [exact A|vm_compute; discriminate|vm_compute; discriminate| |].
    - intros y x Hy _ Ty. specialize (H y Hy). rewrite Ty in H. apply N.eqb_eq in H. apply sub_ext. exact H.
    - intros k (y & Hy & _ & Ty). specialize (H y Hy). rewrite Ty in H. apply cval_eqb_eq in H. apply sub_ext in H.
      transitivity key3; [exact H|exact key3_is].
  Qed.
  Lemma row3_of k v : row_of toy_scheme P3 sel_encode v (row3 k v).
  Proof. unfold row3, row_of. rewrite key3_is. apply (encrypt_row toy_scheme e_encrypt). apply e_encrypting. Qed.

  (** the hypotheses of C65_outcome, met by a recorded election in which trustees 1 and 3 decrypt
      one row and trustees 3 and 2 the other *)
  Definition ds3 : list DecryptionTx := [dec3 0 [x01; x03] yes3; dec3 1 [x03; x02] no3].
  Example C65_case :
    reencrypting toy_scheme /\ history true all3 /\ keyed toy_scheme toy_proofs all3 e3 el3 P3
    /\ at_id all3 (mx_id mixB) (XMix mixB) /\ mx_election mixB = e3
    /\ recorded_votes all3 (mx_votes mixB) [votetx3 x20 yes3; votetx3 x21 no3]
    /\ Forall2 (row_of toy_scheme P3 sel_encode) [yes3; no3] (rows_of (mx_contest mixB) [votetx3 x20 yes3; votetx3 x21 no3])
    /\ Forall (Forall fits) [yes3; no3]
    /\ List.length ds3 = List.length (mx_out mixB)
    /\ (forall i d, nth_error ds3 i = Some d -> (exists x, In x all3 /\ s_tx x = XDecryption d) /\ dc_election d = e3
         /\ dc_upstream d = mx_id mixB /\ N.to_nat (uv (dc_index d)) = i).
  Proof.
    split; [exact e_reencrypting|]. split; [apply run_history; vm_compute; reflexivity|].
    split; [apply proofs_fit_keyed; [eexists; split; [left; reflexivity|split; reflexivity]|vm_compute; reflexivity]|].
    split; [eexists; split; [do 15 right; left; reflexivity|split; reflexivity]|]. split; [reflexivity|].
    split; [repeat constructor; eexists; (split; [do 11 right; left; reflexivity|split; reflexivity]) || (split; [do 12 right; left; reflexivity|split; reflexivity])|].
    split; [constructor; [exact (row3_of x20 yes3)|constructor; [exact (row3_of x21 no3)|constructor]]|].
    split; [repeat constructor; unfold fits; vm_compute; reflexivity|].
    split; [vm_compute; reflexivity|].
    intros [|[|[|i]]] d E; try discriminate E; injection E as <-; (split; [|split; [reflexivity|split; reflexivity]]).
    - eexists. split; [do 20 right; left; reflexivity|reflexivity].
    - eexists. split; [do 21 right; left; reflexivity|reflexivity].
  Qed.

  (** ** C66 *)
  Definition bad1 : PublicKeyTx :=
    mk_pubkey (pubkey_build_id e3 x01) e3 x01 (pkE x0a) key3 (any (cv (fq_of 99))).
  Definition pub3' : list PublicKeyTx := map (fun x => if Byte.eqb (kp_trustee x) x01 then bad1 else x) pub3.
  Definition badpart : STx :=
    sgnE x0a (XPartial (mk_partial (partial_build_id e3 pid3 (n32 0) (n16 0) x01) e3 pid3 (n16 0) (n32 0) x01 (pkE x0a)
      (map (fun ct => any (cv (qmul (fq_of 99) (ct1 (sv ct))))) (nth 0 (mx_out mixB) [])))).
  Definition bad3 : list STx := start3 pub3' ++ [badpart; part x03 0].
End Case.

(** C66 claims [fits_commitments] for every recorded public key; the ledger does not check it.  Here the
    commitments are honest, trustee 1 publishes the agreed encryption key with a proof for a number of
    its own choice; its partial decryption is accepted; together with that of trustee 3 the row
    reaches the threshold, yet no decryption naming them is accepted, whatever it says. *)
Theorem C66_key_proof_unchecked_refuted :
  exists (C : Crypto) (TC : TCrypto) (K : Fld) (M : Mdl) (S : threshold_scheme K M) (SP : sound_proofs S)
    T k e el l cs pk m d,
    ceremony T k /\ history true l /\ at_id l e (XElection el) /\ el_threshold el = k
    /\ (forall c, In c cs <-> exists x, In x l /\ s_tx x = XCommitment c)
    /\ map (fun c => (kc_trustee c, kc_commitment c)) cs = all_commitments T e
    /\ at_id l (pubkey_build_id e (kp_trustee pk)) (XPublicKey pk) /\ ~ fits_commitments S SP cs pk
    /\ at_id l (mx_id m) (XMix m) /\ dc_election d = e /\ dc_upstream d = mx_id m
    /\ NoDup (dc_trustees d) /\ N.of_nat (List.length (dc_trustees d)) = u8v k
    /\ (forall i, In i (dc_trustees d) -> occupied l (partial_slot d i))
    /\ (forall v sig, validate true (ms_store (ms_from l))
         (mk_stx (XDecryption (mk_decryption (dc_id d) (dc_election d) (dc_upstream d) (dc_index d) (dc_contest d) (dc_trustees d) v)) sig) <> Ok tt)
    /\ dc_id d = decryption_build_id (dc_election d) (dc_upstream d) (dc_contest d) (dc_index d).
Proof.
  exists ToyE, ToyET, Fq, Gq, toy_scheme, toy_proofs, T3, x02, e3, el3, bad3, (map comtx3 T3), bad1, mixB, (dec3 0 [x01; x03] []).
  split; [exact C51_ceremony|]. split; [apply run_history; vm_compute; reflexivity|].
  split; [eexists; split; [left; reflexivity|split; reflexivity]|]. split; [reflexivity|].
  split.
  { intros c. split.
    - intros [<-|[<-|[<-|[]]]]; eexists.
      + split; [right; left; reflexivity|reflexivity].
      + split; [do 2 right; left; reflexivity|reflexivity].
      + split; [do 3 right; left; reflexivity|reflexivity].
    - intros (x & I & E). do 18 (destruct I as [<-|I]; [try discriminate E; injection E as <-; cbn [map In T3]; auto|]). destruct I. }
  split; [reflexivity|].
  split; [eexists; split; [do 8 right; left; reflexivity|split; reflexivity]|].
  split. { unfold fits_commitments. intros X. apply (f_equal (@sv _ _)) in X. vm_compute in X. discriminate X. }
  split; [eexists; split; [do 15 right; left; reflexivity|split; reflexivity]|].
  split; [reflexivity|]. split; [reflexivity|]. 
  split; [apply nodupb_iff; reflexivity|]. split; [reflexivity|].
  split. { intros i [<-|[<-|[]]]; eexists; [split; [do 16 right; left; reflexivity|reflexivity]|split; [do 17 right; left; reflexivity|reflexivity]]. }
  split; [|reflexivity].
  intros v sig X. apply (f_equal is_ok) in X. vm_compute in X. discriminate X.
Qed.

Print Assumptions C65_vote_shown.
Print Assumptions C65_mixed_vote_shown.
Print Assumptions C65_outcome.
Print Assumptions C65_honest_keys.
Print Assumptions C66_honest_proof_partial.
Print Assumptions C66_key_proof_unchecked_refuted.
