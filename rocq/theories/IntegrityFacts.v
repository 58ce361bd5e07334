(** * IntegrityFacts: recorded decryptions show what was encrypted. *)
From Verif Require Import Base BaseFacts Utf8 Cbor Ident BuildId Crypto Types Serde Store SpecStore StoreFacts Prost SpecProst Props_Prost
  Validate ValidateFacts SpecValid ValidFacts ValidFacts2 ValidFacts3 SpecHist HistFacts SpecMix MixFacts SpecDecrypt DecryptFacts
  Trustee Lagrange SpecThreshold ThresholdFacts Props_Threshold SpecIntegrity.
From Coq Require Import Ring_theory Field_theory Field ZifyBool ZifyNat ZifyN Sorting.Permutation.
Open Scope list_scope.

Lemma nth_ext_error {A} (l m : list A) : (forall i, nth_error l i = nth_error m i) -> l = m.
Proof.
  revert m. induction l as [|a l IH]; intros [|b m] H; [reflexivity|discriminate (H 0)|discriminate (H 0)|].
  pose proof (H 0) as H0. injection H0 as ->. f_equal. apply IH. intros i. exact (H (Datatypes.S i)).
Qed.

Lemma of_nat_le_inv a b : (N.of_nat a <= N.of_nat b)%N -> a <= b.
Proof. lia. Qed.

Section Facts.
  Context {C : Crypto} {TC : TCrypto} {K : Fld} {M : Mdl} (S : threshold_scheme K M) (SP : sound_proofs S).

  Lemma points_interpolate P (l : list (byte * PubkeyProof * DecryptShare)) c :
    l <> [] -> NoDup (map (fun x => fst (fst x)) l) -> List.length P <= List.length l ->
    (forall x, In x l -> ts_point S (snd x) = smul (eval P (ts_pt S (u8v (fst (fst x))))) c) ->
    gsum (fun x => smul (basis (ts_pt S) f0 (map (fun y => u8v (fst (fst y))) l) (u8v (fst (fst x)))) (ts_point S (snd x))) l
    = smul (eval P f0) c.
  Proof.
    intros NP N L H. set (I := map (fun y => u8v (fst (fst y))) l).
    transitivity (gsum (fun x : byte * PubkeyProof * DecryptShare => smul (fmul (basis (ts_pt S) f0 I (u8v (fst (fst x))))
                                         (eval P (ts_pt S (u8v (fst (fst x)))))) c) l).
    { apply gsum_ext. intros x X. rewrite (H x X), <- s_mul. reflexivity. }
    rewrite gsum_smul. f_equal.
    assert (NI : NoDup I).
    { unfold I. rewrite <- map_map with (g := u8v). clear -N. revert N. generalize (map (fun x : byte * PubkeyProof * DecryptShare => fst (fst x)) l) as b.
      induction b as [|a b IH]; intros N; cbn [map]; [constructor|]. inversion N as [|? ? Na Nb]. constructor; [|auto].
      intros X. apply in_map_iff in X as (a' & E & X). apply u8v_inj in E. congruence. }
    rewrite <- (interpolation (x := ts_pt S) f0 (I := I) P); auto.
    - unfold I. clear. generalize (basis (ts_pt S) f0 (map (fun y : byte * PubkeyProof * DecryptShare => u8v (fst (fst y))) l)) as b. intros b.
      induction l as [|x l IH]; cbn [map fsum]; [reflexivity|]. rewrite IH. reflexivity.
    - unfold I. destruct l; [congruence|discriminate].
    - intros i j Ii Ij Ne. unfold I in Ii, Ij. apply in_map_iff in Ii as (a & <- & _), Ij as (b & <- & _).
      apply ts_pt_sep; auto using u8v_small.
    - unfold I. rewrite map_length. exact L.
  Qed.

  Lemma shares_for_keys i pks parts trs l : shares_for i pks parts trs l ->
    forall j pf sh, In (j, pf, sh) l -> exists k, In k pks /\ kp_trustee k = j /\ kp_proof k = pf.
  Proof.
    induction 1 as [|tr trs l _ _ IH|tr trs l p k s Hp Hk _ _ IH]; intros j pf sh Hj; [destruct Hj|eauto|].
    destruct Hj as [E|Hj]; [|eauto]. injection E as <- <- <-. apply first_in in Hk as [Hk E]. apply in_rev in Hk. eauto.
  Qed.

  (** one ciphertext *)
  Lemma ciphertext_shown L e el P pks parts i ct sel s m : keyed S SP L e el P ->
    range_is L e TKeyGenPublicKey XPublicKey pks -> encrypts S (key_point S P) (sel_encode s) ct -> fits s ->
    forall l, shares_for i pks parts (el_trustees el) l -> threshold_decrypt (el_threshold el) ct l = Some m ->
    sel_decode m = Some sel -> sel = s.
  Proof.
    intros KD R (r & R1 & R2) Fs l Sh D De.
    destruct (sp_combine S SP _ _ _ _ D) as (l' & I' & N' & Q' & V & O).
    assert (X : gsum (fun x => smul (basis (ts_pt S) f0 (map (fun y => u8v (fst (fst y))) l') (u8v (fst (fst x)))) (ts_point S (snd x))) l'
                = smul (eval P f0) (ts_c1 S ct)).
    { apply points_interpolate.
      - pose proof (kd_positive _ _ _ _ _ _ KD) as Po. intros X. subst l'. pose proof (N.le_trans _ _ _ Po Q') as Z. clear -Z. cbn in Z. lia.
      - exact N'.
      - apply of_nat_le_inv. eapply N.le_trans; [apply (kd_threshold _ _ _ _ _ _ KD)|exact Q'].
      - intros [[j pf] sh] X. cbn [fst snd]. specialize (V _ _ _ X). apply I' in X.
        destruct (shares_for_keys _ _ _ _ _ Sh _ _ _ X) as (k & K1 & K2 & K3).
        assert (Y : exists y, In y L /\ in_range e TKeyGenPublicKey y /\ s_tx y = XPublicKey k).
        { unfold range_is in R. apply (in_map XPublicKey) in K1. rewrite <- R in K1. apply in_map_iff in K1 as (y & Y1 & Y2).
          apply listed_in in Y2 as (Y2 & Y3 & Y4). exists y. unfold in_range. auto. }
        destruct Y as (y & Y1 & Y2 & Y3). pose proof (kd_proofs _ _ _ _ _ _ KD y k Y1 Y2 Y3) as Pk.
        destruct (sp_share S SP _ _ _ V) as (x & X1 & X2). rewrite K3, K2 in Pk.
        rewrite X2, R1. transitivity (smul r (smul x (ts_base S))).
        { rewrite <- !s_mul. f_equal. apply (Rmul_comm (F_R f_field)). }
        rewrite <- X1, Pk. rewrite <- !s_mul. f_equal. apply (Rmul_comm (F_R f_field)). }
    rewrite X, R1 in O.
    assert (Y : ts_open S ct (smul r (key_point S P)) = Some m).
    { rewrite <- O. f_equal. unfold key_point. rewrite <- !s_mul. f_equal. apply (Rmul_comm (F_R f_field)). }
    rewrite R2 in Y. injection Y as <-. rewrite C49_roundtrip in De by exact Fs. injection De as <-. reflexivity.
  Qed.

  (** one row *)
  Lemma row_shown L e el P pks parts row sels vote : keyed S SP L e el P ->
    range_is L e TKeyGenPublicKey XPublicKey pks -> row_of S P sel_encode vote row -> Forall fits vote ->
    decrypts sel_decode el pks parts row sels -> sels = vote.
  Proof.
    intros KD R En Fi [Le De]. apply nth_ext_error. intros i.
    pose proof (forall2_len _ _ _ En) as Lv.
    destruct (nth_error sels i) as [sel|] eqn:E1.
    - assert (Hi : i < List.length sels) by (apply nth_error_Some; congruence).
      destruct (nth_error vote i) as [s|] eqn:E2; [|apply nth_error_None in E2; lia].
      destruct (nth_error row i) as [ct|] eqn:E3; [|apply nth_error_None in E3; lia].
      destruct (De i ct sel E3 E1) as (l & m & Sh & D & Dm). f_equal.
      eapply ciphertext_shown; try eassumption.
      + exact (forall2_nth _ _ _ En i s ct E2 E3).
      + rewrite Forall_forall in Fi. apply Fi. eapply nth_error_In, E2.
    - symmetry. apply nth_error_None. apply nth_error_None in E1. lia.
  Qed.

  (** ** histories *)
  Lemma keyed_part L L' e el P : (forall y, In y L' -> In y L) -> at_id L' e (XElection el) -> keyed S SP L e el P -> keyed S SP L' e el P.
  Proof.
    intros Inc A [K1 K2 K3 K4 K5]. split; auto.
    - intros y x Hy. apply K4, Inc, Hy.
    - intros k (y & Y1 & Y2 & Y3). apply K5. exists y. auto.
  Qed.
  Lemma first_with_fun {A} (Q : A -> Prop) l a b : first_with Q l a -> first_with Q l b -> a = b.
  Proof.
    intros (p & q & E & Pa & Na) (p' & q' & E' & Pb & Nb). subst l. revert p' E' Nb.
    induction p as [|c p IH]; intros [|c' p'] E' Nb; cbn [app] in E'; injection E' as E1 E2.
    - exact E1.
    - exfalso. subst c'. apply (Nb a); [left; reflexivity|exact Pa].
    - exfalso. subst c. apply (Na b); [left; reflexivity|exact Pb].
    - apply (IH (fun x H => Na x (or_intror H)) p' E2 (fun x H => Nb x (or_intror H))).
  Qed.
  Lemma row_at_mono p q el up i c row : row_at p el up i c row -> row_at (p ++ q) el up i c row.
  Proof.
    intros [(A & B & D & v & ev & E & F & G)|(A & B & m & E & F & G & H)]; [left|right].
    - split; [exact A|]. split; [exact B|]. split; [exact D|]. exists v, ev. auto using at_id_mono.
    - split; [exact A|]. split; [exact B|]. exists m. auto using at_id_mono.
  Qed.
  Lemma row_at_stored dbg l el up i c row : history dbg l -> row_at (stored l) el up i c row -> row_at l el up i c row.
  Proof.
    intros Hl [(A & B & D & v & ev & E & F & G)|(A & B & m & E & F & G & H)]; [left|right].
    - split; [exact A|]. split; [exact B|]. split; [exact D|]. exists v, ev. apply (at_id_stored dbg l) in E; auto.
    - split; [exact A|]. split; [exact B|]. exists m. apply (at_id_stored dbg l) in E; auto.
  Qed.
  Lemma row_at_fun dbg l el up i c row row' : history dbg l -> row_at l el up i c row -> row_at l el up i c row' -> row = row'.
  Proof.
    intros Hl [(A & B & D & v & ev & E & F & G)|(A & B & m & E & F & G & H)] [(A' & B' & D' & v' & ev' & E' & F' & G')|(A' & B' & m' & E' & F' & G' & H')]; try congruence.
    - pose proof (history_at_id_fun dbg l _ _ _ Hl E E') as X. injection X as <-. rewrite (first_with_fun _ _ _ _ F F') in G. congruence.
    - pose proof (history_at_id_fun dbg l _ _ _ Hl E E') as X. injection X as <-. congruence.
  Qed.
  Lemma decryption_shown dbg l e el P x d row vote : history dbg l -> keyed S SP l e el P ->
    In x l -> s_tx x = XDecryption d -> dc_election d = e ->
    row_at l el (dc_upstream d) (dc_index d) (dc_contest d) row -> row_of S P sel_encode vote row -> Forall fits vote ->
    dc_vote d = vote.
  Proof.
    intros Hl KD Hx Tx Ee Hr En Fi. destruct (hist_accepted dbg l x Hl Hx) as (p & q & E & Hp & _ & V).
    apply (decryption_accepted dbg _ _ x d (stored_holds p) Tx) in V as (el' & row' & pks & parts & Hel & _ & Hrow & Hpk & _ & _ & D).
    assert (Inc : forall y, In y (stored p) -> In y l).
    { intros y Y. subst l. apply in_or_app. left. apply (hist_stored dbg p y Hp), Y. }
    assert (el' = el).
    { assert (A : at_id l (dc_election d) (XElection el')) by (destruct Hel as (y & Y1 & Y2); exists y; auto).
      rewrite Ee in A. pose proof (history_at_id_fun dbg l _ _ _ Hl A (kd_election _ _ _ _ _ _ KD)) as X. injection X as ->. reflexivity. }
    subst el'. assert (row' = row).
    { eapply (row_at_fun dbg l); [exact Hl| |exact Hr]. rewrite E. apply row_at_mono. exact (row_at_stored dbg p _ _ _ _ _ Hp Hrow). }
    subst row'. rewrite Ee in Hel, Hpk. eapply (row_shown (stored p) e el P pks parts row); try eassumption.
    eapply keyed_part; eassumption.
  Qed.

  (** a chain of mixes re-encrypts the rows of the votes *)
  Definition enc_rows P (votes : list (list Selection)) (rows : list (list Ciphertext)) : Prop :=
    Forall2 (row_of S P sel_encode) votes rows.
  Lemma recorded_mono p q ids vs : recorded_votes p ids vs -> recorded_votes (p ++ q) ids vs.
  Proof. intros H. induction H; constructor; auto using at_id_mono. Qed.
  Lemma mix_step P ins outs seed n pf votes : reencrypting S ->
    shuffle_verify seed n ins outs (ts_key S (key_point S P)) pf = true -> enc_rows P votes ins ->
    exists shown, Permutation votes shown /\ enc_rows P shown outs.
  Proof.
    intros Re V F. destruct (Re _ _ _ _ _ _ V) as (ins' & P2 & F2).
    destruct (forall2_perm _ _ _ F _ P2) as (v2 & P3 & F3). exists v2. split; [exact P3|].
    eapply forall2_trans; [|exact F3|exact F2]. intros a b c H1 H2. unfold row_of. eapply forall2_trans; [|exact H1|exact H2].
    cbn beta. intros s x y H3 H4. apply H4, H3.
  Qed.
  Lemma mix_reencrypts dbg l P : reencrypting S -> history dbg l -> forall m, at_id l (mx_id m) (XMix m) ->
    (forall k, at_id l (slot0 (mx_election m) TEncryptionKey) (XEncryptionKey k) -> ek_key k = ts_key S (key_point S P)) ->
    exists vs, recorded_votes l (mx_votes m) vs
      /\ forall votes, enc_rows P votes (rows_of (mx_contest m) vs) ->
           exists shown, Permutation votes shown /\ enc_rows P shown (mx_out m).
  Proof.
    intros Re. induction 1 as [|l x Hl IH F V]; intros m Hm Hk; [destruct Hm as (? & [] & _)|].
    pose proof Hm as (y & Hy & Ey & Ty). apply in_app_iff in Hy as [Hy|[->|[]]].
    { destruct (IH m) as (vs & B & G); [exists y; auto|intros k A; apply Hk, at_id_mono, A|].
      exists vs. split; [apply recorded_mono, B|exact G]. }
    apply (mix_accepted dbg _ _ y m (stored_holds l) Ty) in V as (_ & _ & _ & _ & ins & k & Src & Ak & Hv).
    apply (at_id_stored dbg l) in Ak; [|exact Hl].
    assert (Ek : ek_key k = ts_key S (key_point S P)) by (apply Hk, at_id_mono, Ak).
    rewrite Ek in Hv.
    destruct Src as [(_ & _ & vs & R & Ev & ->)|(p & pm & P0 & Hpm & _ & E1 & E2 & E3 & E4 & ->)].
    - exists vs. split.
      + apply range_votes in R. rewrite <- Ev in R. apply recorded_mono. unfold recorded_votes.
        revert R. clear -Hl. induction 1 as [|i v ids vs A R IH]; constructor; [|exact IH].
        apply (at_id_stored dbg l); assumption.
      + intros votes En. eapply mix_step; eassumption.
    - apply (at_id_stored dbg l) in Hpm; [|exact Hl]. destruct Hpm as (z & Hz & Ez & Tz).
      assert (Ez' : p = mx_id pm) by (rewrite <- Ez; unfold s_id; rewrite Tz; reflexivity).
      destruct (IH pm) as (vs & B & G); [exists z; subst p; auto|intros k' A; apply Hk, at_id_mono; rewrite E1; exact A|].
      rewrite <- E4 in B. rewrite <- E2 in G. exists vs. split; [apply recorded_mono, B|].
      intros votes En. destruct (G votes En) as (v1 & P1 & F1). destruct (mix_step P _ _ _ _ _ _ Re Hv F1) as (v2 & P2 & F2).
      exists v2. split; [eapply Permutation_trans; eassumption|exact F2].
  Qed.
  Lemma recorded_fun dbg l ids vs vs' : history dbg l -> recorded_votes l ids vs -> recorded_votes l ids vs' -> vs = vs'.
  Proof.
    intros Hl R. revert vs'. induction R as [|i v ids vs A R IH]; intros vs' R'; inversion R'; [reflexivity|]. subst.
    f_equal; [|apply IH; assumption]. match goal with X : at_id l i (XVote ?w) |- _ =>
      pose proof (history_at_id_fun dbg l _ _ _ Hl A X) as Y; injection Y as Y; exact Y end.
  Qed.
End Facts.
