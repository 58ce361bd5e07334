(** * ValidFacts3: acceptance of partial decryptions and decryptions; the whole of [validate]. *)
From Verif Require Import Base BaseFacts Hex HexFacts Utf8 Cbor CborFacts Ident BuildId IdentFacts Crypto Types
  Serde SerdeFacts Store SpecStore StoreFacts Prost Validate ValidateFacts SpecValid ValidFacts ValidFacts2.
From Coq Require Import ZifyBool ZifyNat ZifyN.
Open Scope list_scope.

Lemma for_combine {E A B} (P : A -> B -> bool) (e : E) l : forall m,
  length m = length l ->
  (for_each (combine l m) (fun '(a, b) => fail_if (negb (P a b)) e) = Ok tt <->
   Forall2 (fun a b => P a b = true) l m).
Proof.
  induction l as [|a l IH]; intros [|b m] Hl; try discriminate; cbn [combine for_each].
  - split; [constructor|reflexivity].
  - rewrite seq_ok, fail_if_tt, negb_false_iff, IH by (cbn in Hl; lia). split.
    + intros [X Y]. constructor; auto.
    + intros X. inversion X; auto.
Qed.

Lemma Forall2_length {A B} (P : A -> B -> Prop) l m : Forall2 P l m -> length l = length m.
Proof. induction 1; cbn; auto. Qed.

Section Facts.
  Context {C : Crypto}.
  Variables (s : Store) (L : list STx).
  Hypothesis H : holds s L.
  Let asc : ascending L := h_asc _ _ H.

  Lemma pow256_2 : pow256 2 = 65536%N.
  Proof. reflexivity. Qed.
  Lemma get_vote_iff i v : (exists g, q (get_vote s i) = Ok (v, g)) <-> at_id L i (XVote v).
  Proof.
    rewrite <- (typed_at s L H as_vote XVote TVote i v as_vote_iff). unfold q, get_vote.
    split; intros (g & E); exists g; apply map_err_ok in E || apply map_err_ok; exact E.
  Qed.
  Lemma get_mix_iff i v : (exists g, q (get_mix s i) = Ok (v, g)) <-> at_id L i (XMix v).
  Proof.
    rewrite <- (typed_at s L H as_mix XMix TMix i v as_mix_iff). unfold q, get_mix.
    split; intros (g & E); exists g; apply map_err_ok in E || apply map_err_ok; exact E.
  Qed.
  Lemma get_pubkey_iff i v : (exists g, q (get_keygen_public_key s i) = Ok (v, g)) <-> at_id L i (XPublicKey v).
  Proof.
    rewrite <- (typed_at s L H as_pubkey XPublicKey TKeyGenPublicKey i v as_pubkey_iff). unfold q, get_keygen_public_key.
    split; intros (g & E); exists g; apply map_err_ok in E || apply map_err_ok; exact E.
  Qed.
  Lemma get_partial_iff i v : (exists g, q (get_partial_decryption s i) = Ok (v, g)) <-> at_id L i (XPartial v).
  Proof.
    rewrite <- (typed_at s L H as_partial XPartial TPartialDecryption i v as_partial_iff).
    unfold q, get_partial_decryption.
    split; intros (g & E); exists g; apply map_err_ok in E || apply map_err_ok; exact E.
  Qed.

  Lemma encrypted_vote_iff up idx c e row :
    encrypted_vote s up idx c (el_mix_config e) = Ok row <-> row_at L e up idx c row.
  Proof.
    unfold encrypted_vote, row_at, vote_row, mix_row.
    destruct (id_type up); try (split; [discriminate|intros [(X & _)|(X & _)]; discriminate]).
    - split.
      + intros V. rewrite !seq_ok, !fail_if_tt, negb_false_iff, N.eqb_eq in V. destruct V as (A & B & V).
        apply bind_ok in V as ([v g] & D & V). cbn [fst] in V.
        destruct (find _ (vt_votes v)) as [ev|] eqn:F; [|discriminate]. injection V as <-.
        left. split; [reflexivity|]. split; [destruct (el_mix_config e); [discriminate|reflexivity]|].
        split; [exact B|]. exists v, ev. split; [apply get_vote_iff; eauto|]. split; [|reflexivity].
        eapply find_first; [|exact F]. intros x. apply u_eqb_eq.
      + intros [(_ & A & B & v & ev & D & F & ->)|(X & _)]; [|discriminate].
        rewrite A, B. cbn [fail_if bind N.eqb negb]. apply get_vote_iff in D as (g & D). rewrite D. cbn [bind fst].
        rewrite (proj2 (find_first _ _ _ _ (fun x => u_eqb_eq (ev_contest x) c)) F). reflexivity.
    - split.
      + intros V. apply bind_ok in V as ([m g] & D & V). cbn [fst] in V.
        rewrite !seq_ok, !fail_if_tt, negb_false_iff, u_eqb_eq, N.leb_gt in V. destruct V as (A & B & G & V).
        apply or_panic_ok in V. right. split; [reflexivity|].
        split; [destruct (el_mix_config e); discriminate|]. exists m. split; [apply get_mix_iff; eauto|].
        split; [exact A|]. split; [exact G|exact V].
      + intros [(X & _)|(_ & A & m & D & F & G & V)]; [discriminate|].
        apply get_mix_iff in D as (g & D). rewrite D. cbn [bind fst].
        rewrite !seq_ok, !fail_if_tt, negb_false_iff, u_eqb_eq, N.leb_gt. split; [exact F|].
        split; [destruct (el_mix_config e); congruence|]. split; [exact G|]. apply or_panic_ok, V.
  Qed.

  Lemma full_trustee_find e i k tr :
    find (fun x => Byte.eqb (tr_index x) i && pk_eqb (tr_public_key x) k) (get_full_trustees e) = Some tr ->
    tr_index tr = i /\ lists_trustee e i k.
  Proof.
    intros F. apply find_some in F as [A B]. rewrite andb_true_iff, byte_eqb_eq, pk_eqb_eq in B. destruct B as [B D].
    split; [exact B|]. unfold get_full_trustees in A. apply in_map_iff in A as (t0 & <- & A). exists t0. cbn in *. auto.
  Qed.
  Lemma full_trustee_found e i k :
    lists_trustee e i k ->
    exists tr, find (fun x => Byte.eqb (tr_index x) i && pk_eqb (tr_public_key x) k) (get_full_trustees e) = Some tr.
  Proof.
    intros (t0 & A & B & D). destruct (find _ _) as [tr|] eqn:F; [eauto|]. exfalso.
    unfold get_full_trustees in F.
    pose proof (find_none _ _ F (mk_trustee (tr_public_key t0) (tr_index t0)
                    (u_of 8 (N.of_nat (List.length (el_trustees e)))) (el_threshold e))) as X.
    cbn [tr_index tr_public_key] in X. rewrite B, D in X.
    rewrite byte_eqb_refl, (proj2 (pk_eqb_eq k k) eq_refl) in X. discriminate X.
    apply in_map_iff. exists t0. rewrite B, D. auto.
  Qed.

  Lemma validate_partial_iff t : validate_partial s t = Ok tt <-> ok_partial L t.
  Proof.
    unfold validate_partial, ok_partial. split.
    - intros V. apply bind_ok in V as (e & A & V). apply (election_of_iff s L H) in A.
      apply bind_ok in V as (tr & B & V). apply ok_or_ok, full_trustee_find in B as [B1 B2]. rewrite B1 in V.
      apply seq_ok in V as [D V]. rewrite fail_if_tt, negb_false_iff, id_eqb_eq in D.
      rewrite (h_get _ _ H) in V. cbn [lift bind] in V. apply seq_ok in V as [F V]. rewrite fail_if_tt in F.
      apply bind_ok in V as (row & G & V). apply encrypted_vote_iff in G.
      apply bind_ok in V as ([pk g] & I & V). cbn [fst] in V.
      apply seq_ok in V as [J V]. rewrite fail_if_tt, orb_false_iff, !negb_false_iff, byte_eqb_eq, pk_eqb_eq in J.
      apply seq_ok in V as [K V]. rewrite fail_if_tt, negb_false_iff, Nat.eqb_eq in K.
      apply (for_combine (fun sh ct => share_verify sh (kp_proof pk) ct)) in V; [|exact K].
      exists e, row, pk. split; [exact A|]. split; [exact B2|]. split; [auto|].
      split. { apply (occupied_entry s L H).
               change (slot0 (pd_election t) TVotingEnd) with (id_new (pd_election t) TVotingEnd None).
               destruct (entry L _); congruence. }
      split; [exact G|]. split; [apply get_pubkey_iff; eauto|]. destruct J. auto.
    - intros (e & row & pk & A & B & D & F & G & I & J1 & J2 & V).
      apply bind_ok. exists e. split; [apply (election_of_iff s L H), A|].
      destruct (full_trustee_found _ _ _ B) as (tr & T). apply bind_ok. exists tr. split; [apply ok_or_ok, T|].
      apply full_trustee_find in T as [-> _].
      apply seq_ok. split; [rewrite fail_if_tt, negb_false_iff, id_eqb_eq; auto|].
      rewrite (h_get _ _ H). cbn [lift bind]. apply seq_ok. split.
      { rewrite fail_if_tt. apply (occupied_entry s L H) in F.
        change (slot0 (pd_election t) TVotingEnd) with (id_new (pd_election t) TVotingEnd None) in F.
        destruct (entry L _); congruence. }
      apply bind_ok. exists row. split; [apply encrypted_vote_iff, G|].
      apply get_pubkey_iff in I as (g & I). apply bind_ok. exists (pk, g). split; [exact I|]. cbn [fst].
      apply seq_ok. split.
      { rewrite fail_if_tt, orb_false_iff, !negb_false_iff, byte_eqb_eq, pk_eqb_eq. auto. }
      assert (K : length row = length (pd_shares t)) by (symmetry; eapply Forall2_length; eauto).
      apply seq_ok. split; [rewrite fail_if_tt, negb_false_iff, Nat.eqb_eq; exact K|].
      apply (for_combine (fun sh ct => share_verify sh (kp_proof pk) ct)); [exact K|exact V].
  Qed.

  (** ** decryption *)
  Lemma last_by_some {A} (idx : A -> byte) l i a : last_by idx l i = Some a <-> last_with (fun a => idx a = i) l a.
  Proof. unfold last_by, last_with. apply find_first. intros x. apply byte_eqb_eq. Qed.
  Lemma last_by_none {A} (idx : A -> byte) l i : last_by idx l i = None <-> forall a, In a l -> idx a <> i.
  Proof.
    unfold last_by. rewrite (find_none_iff _ (fun a => idx a = i)) by (intros x; apply byte_eqb_eq).
    split; intros X a Ha; apply X; [apply -> in_rev|apply in_rev]; exact Ha.
  Qed.
  Lemma decrypt_shares_iff i trs pks parts l :
    decrypt_shares i trs pks parts = Ok l <-> shares_for i pks parts trs l.
  Proof.
    unfold decrypt_shares. revert l. induction trs as [|tr trs IH]; intros l.
    - cbn. split; [intros X; injection X as <-; constructor|]. intros X. inversion X. reflexivity.
    - cbn [map_res]. split.
      + intros V. apply bind_ok in V as (ll & V & E). injection E as <-.
        apply bind_ok in V as (y & Y & V). apply bind_ok in V as (ys & Z & V). injection V as <-.
        cbn [concat].
        assert (R : shares_for i pks parts trs (concat ys)) by (apply IH; rewrite Z; reflexivity).
        destruct (last_by pd_trustee parts (tr_index tr)) as [p|] eqn:P.
        * destruct (last_by kp_trustee pks (tr_index tr)) as [k|] eqn:K.
          -- apply bind_ok in Y as (sh & S & Y). injection Y as <-. apply or_panic_ok in S.
             apply last_by_some in P, K. apply sf_take with p; assumption.
          -- injection Y as <-. apply sf_skip; [|exact R]. right. apply last_by_none, K.
        * injection Y as <-. apply sf_skip; [|exact R]. left. apply last_by_none, P.
      + intros V. inversion V as [|? ? ? X R|? ? l' p k sh P K S R]; subst.
        * apply IH in R. apply bind_ok in R as (ll & R & E). injection E as <-. apply bind_ok.
          exists ([] :: ll). split; [|reflexivity]. rewrite R.
          destruct X as [X|X].
          -- apply last_by_none in X. rewrite X. reflexivity.
          -- apply last_by_none in X. rewrite X. destruct (last_by pd_trustee parts (tr_index tr)); reflexivity.
        * apply IH in R. apply bind_ok in R as (ll & R & E). injection E as <-. apply bind_ok.
          exists ([(tr_index tr, kp_proof k, sh)] :: ll). split; [|reflexivity]. rewrite R.
          apply last_by_some in P, K. rewrite P, K, S. reflexivity.
  Qed.
  Lemma decrypt_from_iff e pks parts row : forall i sels,
    decrypt_from i row (el_threshold e) (el_trustees e) pks parts = Ok sels <->
    (length sels = length row
     /\ forall j ct sel, nth_error row j = Some ct -> nth_error sels j = Some sel ->
          exists l m, shares_for (i + j) pks parts (el_trustees e) l
            /\ threshold_decrypt (el_threshold e) ct l = Some m /\ sel_decode m = Some sel).
  Proof.
    induction row as [|ct row IH]; intros i sels; cbn [decrypt_from].
    - split.
      + intros X. injection X as <-. split; [reflexivity|]. intros [|j] ct sel Hc; discriminate.
      + intros [X _]. destruct sels; [reflexivity|discriminate].
    - split.
      + intros V. apply bind_ok in V as (l & A & V). apply decrypt_shares_iff in A.
        apply bind_ok in V as (m & B & V). apply ok_or_ok in B. apply bind_ok in V as (sel & D & V).
        apply ok_or_ok in D. apply bind_ok in V as (rest & F & V). injection V as <-.
        apply IH in F as [F1 F2]. split; [cbn; lia|]. intros [|j] ct' sel' Hc Hs.
        * injection Hc as <-. injection Hs as <-. rewrite Nat.add_0_r. eauto.
        * replace (i + S j) with (S i + j) by lia. eapply F2; eauto.
      + intros [A B]. destruct sels as [|sel sels]; [discriminate|].
        destruct (B 0 ct sel eq_refl eq_refl) as (l & m & S1 & T & D). rewrite Nat.add_0_r in S1.
        apply bind_ok. exists l. split; [apply decrypt_shares_iff, S1|].
        apply bind_ok. exists m. split; [apply ok_or_ok, T|].
        apply bind_ok. exists sel. split; [apply ok_or_ok, D|].
        apply bind_ok. exists sels. split; [|reflexivity]. apply IH. split; [cbn in A; lia|].
        intros j ct' sel' Hc Hs. replace (S i + j) with (i + S j) by lia. eapply (B (S j)); eauto.
  Qed.
  Lemma decrypt_vote_iff e pks parts row sels :
    decrypt_vote row (el_threshold e) (el_trustees e) pks parts = Ok sels <-> decrypts sel_decode e pks parts row sels.
  Proof. unfold decrypt_vote, decrypts. rewrite decrypt_from_iff. reflexivity. Qed.

  Lemma collect_partials_iff e t parts l :
    map_res (fun i =>
      let! tr := ok_or (get_trustee e i) (TrusteeDoesNotExist i) in
      let! p := q (get_partial_decryption s
                     (partial_build_id (dc_election t) (dc_upstream t) (dc_contest t) (dc_index t) (tr_index tr))) in
      Ok (fst p)) l = Ok parts <->
    Forall2 (fun i p => (exists tr, In tr (el_trustees e) /\ tr_index tr = i)
        /\ at_id L (partial_build_id (dc_election t) (dc_upstream t) (dc_contest t) (dc_index t) i) (XPartial p))
      l parts.
  Proof.
    revert parts. induction l as [|i l IH]; intros parts; cbn [map_res].
    - split; [intros X; injection X as <-; constructor|]. intros X. inversion X. reflexivity.
    - split.
      + intros V. apply bind_ok in V as (p & A & V). apply bind_ok in V as (ps & B & V). injection V as <-.
        apply IH in B. constructor; [|exact B].
        apply bind_ok in A as (tr & T & A). apply ok_or_ok in T. unfold get_trustee in T.
        apply find_some in T as [T1 T2]. apply byte_eqb_eq in T2. subst i.
        apply bind_ok in A as ([p' g] & A & X). cbn [fst] in X. injection X as <-.
        split; [eauto|]. apply get_partial_iff. eauto.
      + intros V. inversion V as [|? p ? ps [(tr & T1 & T2) P] R]; subst.
        apply bind_ok. exists p. split.
        * destruct (get_trustee e (tr_index tr)) as [tr'|] eqn:G.
          -- cbn [ok_or bind]. unfold get_trustee in G. apply find_some in G as [_ G]. apply byte_eqb_eq in G.
             rewrite <- G. apply get_partial_iff in P as (g & P). rewrite P. reflexivity.
          -- exfalso. unfold get_trustee in G. pose proof (find_none _ _ G _ T1) as X. cbn in X.
             rewrite byte_eqb_refl in X. discriminate.
        * apply bind_ok. exists ps. split; [apply IH, R|reflexivity].
  Qed.

  Lemma validate_decryption_iff t : validate_decryption s t = Ok tt <-> ok_decryption sel_decode L t.
  Proof.
    unfold validate_decryption, ok_decryption. split.
    - intros V. apply seq_ok in V as [A V]. rewrite fail_if_tt, negb_false_iff, id_eqb_eq in A.
      apply bind_ok in V as (e & B & V). apply (election_of_iff s L H) in B.
      apply bind_ok in V as (row & D & V). apply encrypted_vote_iff in D.
      apply bind_ok in V as (txs & F & V). apply bind_ok in V as (pks & G & V).
      assert (R : range_is L (dc_election t) TKeyGenPublicKey XPublicKey pks).
      { apply (@range_into _ s L H VError _ as_pubkey XPublicKey _ _ _ as_pubkey_iff). eauto. }
      apply bind_ok in V as (parts & I & V). apply collect_partials_iff in I.
      apply seq_ok in V as [J V]. rewrite fail_if_tt, Nat.ltb_ge in J.
      apply bind_ok in V as (sels & K & V). rewrite fail_if_tt, negb_false_iff, sels_eqb_eq in V. subst sels.
      apply decrypt_vote_iff in K. exists e, row, pks, parts. do 5 (split; [auto|]).
      split; [|exact K]. rewrite (Forall2_length _ _ _ I). lia.
    - intros (e & row & pks & parts & B & A & D & R & I & J & K).
      apply seq_ok. split; [rewrite fail_if_tt, negb_false_iff, id_eqb_eq; auto|].
      apply bind_ok. exists e. split; [apply (election_of_iff s L H), B|].
      apply bind_ok. exists row. split; [apply encrypted_vote_iff, D|].
      apply (@range_into _ s L H VError _ as_pubkey XPublicKey _ _ _ as_pubkey_iff) in R as (txs & F & G).
      apply bind_ok. exists txs. split; [exact F|]. apply bind_ok. exists pks. split; [exact G|].
      apply bind_ok. exists parts. split; [apply collect_partials_iff, I|].
      apply seq_ok. split; [rewrite fail_if_tt, Nat.ltb_ge; rewrite (Forall2_length _ _ _ I) in J; lia|].
      apply bind_ok. exists (dc_vote t). split; [apply decrypt_vote_iff, K|].
      rewrite fail_if_tt, negb_false_iff, sels_eqb_eq. reflexivity.
  Qed.

  (** ** all types *)
  Definition ok_tx (dbg : bool) (t : Tx) : Prop :=
    match t with
    | XElection t => el_id t = slot0 (el_id t) TElection
        /\ (u8v (el_threshold t) <= N.of_nat (length (el_trustees t)))%N
        /\ (u8v (el_auth_threshold t) <= N.of_nat (length (el_authenticators t)) mod 256)%N
    | XCommitment t => ok_commitment L t
    | XShare t => ok_share L t
    | XPublicKey t => ok_pubkey L t
    | XEncryptionKey t => ok_enckey L t
    | XVote t => ok_vote L t
    | XVotingEnd t => ok_votingend L t
    | XMix t => ok_mix dbg L t
    | XPartial t => ok_partial L t
    | XDecryption t => ok_decryption sel_decode L t
    end.
  Lemma validate_tx_iff dbg t : validate_tx dbg s t = Ok tt <-> ok_tx dbg t.
  Proof.
    destruct t; cbn [validate_tx ok_tx].
    - apply validate_election_iff.
    - apply (validate_commitment_iff s L H).
    - apply (validate_share_iff s L H).
    - apply (validate_pubkey_iff s L H).
    - apply (validate_enckey_iff s L H).
    - apply (validate_vote_iff s L H).
    - apply (validate_votingend_iff s L H).
    - apply (validate_mix_iff s L H).
    - apply validate_partial_iff.
    - apply validate_decryption_iff.
  Qed.
  Lemma validate_iff dbg x :
    validate dbg s x = Ok tt <->
    id_type (s_id x) = s_type x
    /\ (forall k, tx_public (s_tx x) = Some k -> signed_by k x)
    /\ ok_tx dbg (s_tx x).
  Proof. rewrite validate_ok, validate_tx_iff, verify_signature_ok. reflexivity. Qed.
End Facts.
