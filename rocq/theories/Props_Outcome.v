(** * C75-C76: the audit of an election run by honest participants, and what it prints. *)
From Verif Require Import Base BaseFacts Utf8 Hex HexFacts Cbor Ident BuildId IdentFacts Crypto Types Serde Store SpecStore StoreFacts
  Prost Validate ValidateFacts SpecValid ValidFacts SpecHist HistFacts Exonum SpecLedger LedgerFacts Api Audit SpecAudit AuditFacts Encrypt Trustee Tasks SpecTasks
  SpecService SpecThreshold Lagrange ThresholdFacts SpecRun RunFacts SpecTally Tally TallyFacts SpecSerde SpecCli SpecOutcome OutcomeFacts
  Toy ToyT ToyE Scene Props_Threshold Props_Audit Props_Tally Props_Run.
From Coq Require Import Strings.String ZifyBool ZifyNat ZifyN Sorting.Permutation.
Import List ListNotations.
Open Scope list_scope.

Lemma first_choice_iff v c : first_choice v c <-> option_map text (nth_error v 0) = Some c.
Proof.
  unfold first_choice. split.
  - intros (s & v' & -> & <-). reflexivity.
  - destruct v as [|s v]; [discriminate|]. intros X. injection X as <-. exists s, v. auto.
Qed.
Definition chooses (c : bytes) (v : list Selection) : bool :=
  match option_map text (nth_error v 0) with Some x => bytes_eqb c x | None => false end.
Lemma chooses_iff c v : chooses c v = true <-> first_choice v c.
Proof.
  rewrite first_choice_iff. unfold chooses. destruct (option_map text (nth_error v 0)) as [x|]; [|split; discriminate].
  rewrite bytes_eqb_eq. split; congruence.
Qed.
Lemma chosen_count c cast n : chosen c cast n <-> n = N.of_nat (List.length (filter (chooses c) cast)).
Proof.
  revert n. induction cast as [|v cast IH]; intros n; cbn [filter].
  - split; [intros X; inversion X; reflexivity|intros ->; constructor].
  - destruct (chooses c v) eqn:B.
    + apply chooses_iff in B. split.
      * intros X. inversion X as [|? ? m _ Y|? ? m N _]; subst; [|contradiction]. apply IH in Y as ->. cbn [List.length]. lia.
      * intros ->. cbn [List.length]. replace (N.of_nat (Datatypes.S (List.length (filter (chooses c) cast)))) with (N.of_nat (List.length (filter (chooses c) cast)) + 1)%N by lia.
        constructor; [exact B|]. apply IH. reflexivity.
    + assert (N0 : ~ first_choice v c) by (rewrite <- chooses_iff; congruence). split.
      * intros X. inversion X as [|? ? m Y _|? ? m _ Y]; subst; [contradiction|]. apply IH, Y.
      * intros ->. constructor; [exact N0|]. apply IH. reflexivity.
Qed.
Lemma filter_map_len {X Y} (g : X -> Y) (f : Y -> bool) l : List.length (filter (fun x => f (g x)) l) = List.length (filter f (map g l)).
Proof. induction l as [|x l IH]; [reflexivity|]. cbn [filter map]. destruct (f (g x)); cbn [List.length]; rewrite IH; reflexivity. Qed.
Lemma filter_perm_len {X} (f : X -> bool) l m : Permutation l m -> List.length (filter f l) = List.length (filter f m).
Proof.
  induction 1 as [|x l m _ IH|x y l|l m n _ IH1 _ IH2]; [reflexivity| | |congruence]; cbn [filter].
  - destruct (f x); cbn [List.length]; congruence.
  - destruct (f x), (f y); reflexivity.
Qed.

Section Props.
  Context {C : Crypto} {TC : TCrypto} {K : Fld} {M : Mdl} (S : threshold_scheme K M).
  Context {R : Type} (eg : EGPublicKey -> R -> bytes -> Ciphertext * R).
  Section Election.
    Variables (dbg : bool) (el : ElectionTx) (T : people) (contests : list u32).
    Notation e := (el_id el).
    Notation honest := (SpecRun.honest eg dbg el T contests).
    Notation laws := (laws S eg el).

    (** ** C75: the audit of an election run by honest participants succeeds, and ends with exactly the
        recorded transactions of the election, if the selection [E] takes no other election *)
    Definition selects (E : arr 15 -> bool) (h : list STx) : Prop :=
      E (id_election e) = true /\ forall x, In x h -> E (id_election (s_id x)) = true -> inside el x.
    Lemma has_some h : honest h -> exists x, In x h /\ inside el x.
    Proof.
      intros Ho. destruct (has_election eg dbg el T contests h Ho) as (x & Ix & Tx). exists x. split; [exact Ix|].
      unfold inside, s_id. rewrite Tx. reflexivity.
    Qed.
    Lemma selects_orderly : laws -> set_up el T contests -> forall E h, honest h -> selects E h ->
      history dbg h /\ orderly E h /\ exists x, In x h /\ mine E x.
    Proof.
      intros L SU E h Ho [SE Only]. pose proof (C70_history S eg dbg el T contests L SU h Ho) as Hh.
      destruct L as [DH Op Sc Si En Sh Ve Re]. split; [exact Hh|]. split.
      - exact (honest_orderly S DH Op Sc eg dbg el T contests SU Ve E h Ho Hh Only).
      - destruct (has_some h Ho) as (x & Ix & Ins). exists x. split; [exact Ix|]. unfold mine. rewrite Ins. exact SE.
    Qed.
    Theorem C75_audit : laws -> set_up el T contests -> forall E h, honest h -> selects E h ->
      exists m, audit dbg (filter (fun x => E (id_election (s_id x))) (stored h)) = Ok m
        /\ forall i x, ms_get m i = Some x <-> In x h /\ inside el x /\ s_id x = i.
    Proof.
      intros L SU E h Ho Se. destruct (selects_orderly L SU E h Ho Se) as (Hh & O & X).
      destruct (C40_orderly_replay_partial dbg h E Hh O X) as (m & A & G). exists m. split; [exact A|].
      intros i x. rewrite G. destruct Se as [S1 S2]. unfold mine. split; intros (Ix & Y & Ei); (split; [exact Ix|]; split; [|exact Ei]).
      - apply S2; assumption.
      - rewrite Y. exact S1.
    Qed.
    (** so does the command, on the listing of a node whose ledger was produced by such an election, if no
        other election has an identifier with the same first fifteen characters *)
    Theorem C75_command : laws -> set_up el T contests -> forall envs (s : rstring), Forall SpecLedger.honest envs ->
      sv s = id_to_string e -> honest (accepted dbg [] envs) -> selects (shares_prefix e) (accepted dbg [] envs) ->
      exists m, command_e2e dbg (run dbg [] envs) s = Ok m
        /\ forall i x, ms_get m i = Some x <-> In x (accepted dbg [] envs) /\ inside el x /\ s_id x = i.
    Proof.
      intros L SU envs s Hon Hs Ho Se. destruct (selects_orderly L SU _ _ Ho Se) as (_ & O & _).
      destruct (C40_command_partial dbg envs e s Hon (abbrev_full _ _ Hs) O (has_some _ Ho)) as (m & A & G). exists m. split; [exact A|].
      intros i x. rewrite G. destruct Se as [S1 S2]. split; intros (Ix & Y & Ei); (split; [exact Ix|]; split; [|exact Ei]).
      - apply S2; [exact Ix|]. rewrite <- prefix_of_election, Ei. exact Y.
      - rewrite <- Ei, prefix_of_election, Y. exact S1.
    Qed.

    (** ** C76: the totals of a contest over the recorded decryptions are those of the votes cast *)
    Theorem C76_tally : laws -> set_up el T contests ->
      forall h Q k c cast, honest h -> ended el h -> quorum dbg el T Q h ->
      at_id h (slot0 e TEncryptionKey) (XEncryptionKey k) -> Forall2 (encrypted eg (ek_key k)) (ballots el h c) cast ->
      forall order order' ct r, fair order -> fair order' ->
      (pairwise ct = true -> forall v t, In v cast -> named v t -> plain_name t) -> tally order ct cast = Ok r ->
      exists r', tally order' ct (map dc_vote (decryptions_of el h c)) = Ok r'
        /\ tl_votes r' = List.length cast /\ Permutation (tl_totals r) (tl_totals r').
    Proof.
      intros L SU h Q k c cast Ho Ed Qu Ke F order order' ct r Fo Fo' Pn E.
      destruct (C73_published S eg dbg el T contests L SU h Q k c Ho Ed Qu Ke) as [_ P]. specialize (P cast F).
      destruct (C54_ballot_order_partial order order' ct cast _ r Fo Fo' (Permutation_sym P) Pn E) as (r' & E' & N1 & N2 & Pt).
      exists r'. split; [exact E'|]. split; [congruence|exact Pt].
    Qed.

    (** all contests together, as the command counts them *)
    Lemma all_published : laws -> set_up el T contests ->
      forall h Q k cast, honest h -> ended el h -> quorum dbg el T Q h ->
      at_id h (slot0 e TEncryptionKey) (XEncryptionKey k) -> Forall2 (encrypted eg (ek_key k)) (entries el h) cast ->
      Permutation (map dc_vote (decrypted el h)) cast.
    Proof.
      intros L SU h Q k cast Ho Ed Qu Ke F. pose proof (forall2_len _ _ _ F) as Ln.
      assert (Es : map snd (combine (entries el h) cast) = cast).
      { clear -Ln. revert cast Ln. induction (entries el h) as [|x l IH]; intros [|y m] Ln; try discriminate Ln; [reflexivity|].
        cbn [combine map snd]. f_equal. apply IH. cbn [List.length] in Ln. congruence. }
      rewrite <- Es.
      apply (perm_by_key dc_contest (fun p : EncryptedVote * list Selection => ev_contest (fst p))). intros c.
      rewrite <- decryptions_split. destruct (C73_published S eg dbg el T contests L SU h Q k c Ho Ed Qu Ke) as [_ P]. apply P.
      rewrite ballots_split. destruct (forall2_filter _ (fun ev => u_eqb (ev_contest ev) c) _ _ F) as (m' & Fm & ->). exact Fm.
    Qed.
    (** the replayed store lists the recorded decryptions of the election *)
    Lemma replayed_decryptions : laws -> set_up el T contests -> forall E h m, honest h -> selects E h ->
      audit dbg (filter (fun x => E (id_election (s_id x))) (stored h)) = Ok m ->
      exists L ds, holds (ms_store m) L /\ range_is L e TDecryption XDecryption ds /\ Permutation ds (decrypted el h).
    Proof.
      intros L SU E h m Ho Se A. destruct (selects_orderly L SU E h Ho Se) as (Hh & O & X).
      pose proof (audit_ok dbg h E Hh O X) as A'. change (filter _ (stored h)) with (replayed h E) in A. rewrite A in A'. injection A' as ->. clear A.
      assert (Re : stored (replayed h E) = replayed h E).
      { apply asc_ext; [apply stored_asc|exact (replayed_asc h E)|]. intros y. apply stored_in, asc_nodup, replayed_asc. }
      exists (stored (replayed h E)). rewrite Re.
      assert (Dec : forall x, In x (listed (replayed h E) e TDecryption) -> exists d, s_tx x = XDecryption d).
      { intros x Ix. apply listed_in in Ix as (Ix & _ & Ty). apply (replayed_in dbg h E Hh) in Ix as [Ix _].
        rewrite (hist_typed dbg h x Hh Ix) in Ty. unfold s_type in Ty. destruct (s_tx x) as [t|t|t|t|t|t|t|t|t|t] eqn:Tx; try discriminate Ty. eauto. }
      set (pick := fun x : STx => match s_tx x with XDecryption d => [d] | _ => [] end).
      assert (Pk : forall x, pick x = [] \/ exists d, pick x = [d] /\ dc_id d = s_id x).
      { intros x. unfold pick, s_id. destruct (s_tx x); auto. right. eexists. split; reflexivity. }
      exists (flat_map pick (listed (replayed h E) e TDecryption)). split; [rewrite <- Re at 2; apply stored_holds|]. split.
      - unfold range_is. revert Dec. generalize (listed (replayed h E) e TDecryption) as l. induction l as [|x l IH]; intros Dec; [reflexivity|].
        cbn [map flat_map]. rewrite map_app, <- IH by (intros y Iy; apply Dec; right; exact Iy).
        destruct (Dec x (or_introl eq_refl)) as (d & Tx). unfold pick. rewrite Tx. reflexivity.
      - destruct L as [DH Op Sc Si En Sh Ve Re']. apply NoDup_Permutation.
        + apply (NoDup_map_inv dc_id), pick_nodup; [|exact Pk].
          apply asc_nodup, listed_asc, replayed_asc.
        + apply (NoDup_map_inv dc_id), pick_nodup; [apply (hist_nodup dbg h Hh)|]. intros x. unfold s_id. destruct (s_tx x) as [t|t|t|t|t|t|t|t|t|t]; auto.
          destruct (id_eqb (dc_election t) e); [right; exists t; auto|auto].
        + intros d. unfold decrypted. rewrite !in_flat_map. split.
          * intros (x & Ix & Id). apply listed_in in Ix as (Ix & Ins & Ty). apply (replayed_in dbg h E Hh) in Ix as [Ix _]. exists x. split; [exact Ix|].
            unfold pick in Id. destruct (s_tx x) as [t|t|t|t|t|t|t|t|t|t] eqn:Tx; try (destruct Id; fail).
            destruct (inside_decryption S DH Op Sc eg dbg el T contests SU Ve h x t Ho Hh Ix Ins Tx) as (Ee & _).
            apply id_eqb_eq in Ee. rewrite Ee. exact Id.
          * intros (x & Ix & Id). exists x. destruct (s_tx x) as [t|t|t|t|t|t|t|t|t|t] eqn:Tx; try destruct Id.
            destruct (id_eqb (dc_election t) e) eqn:B; [|destruct Id]. apply id_eqb_eq in B. destruct Id as [->|[]].
            assert (Ins : inside el x) by (apply (named_inside dbg el h x Hh Ix); rewrite Tx; exact B).
            split; [|unfold pick; rewrite Tx; left; reflexivity]. apply listed_in. split.
            -- apply (replayed_in dbg h E Hh). split; [exact Ix|]. unfold mine. rewrite Ins. apply Se.
            -- split; [exact Ins|]. rewrite (hist_typed dbg h x Hh Ix). unfold s_type. rewrite Tx. reflexivity.
    Qed.

    Lemma e2e_reads order s L ds : holds s L -> range_is L e TDecryption XDecryption ds ->
      e2e_tally order s e = (let! t := e2e_count (map dc_vote ds) [] in Ok (order _ t)).
    Proof.
      intros H Rg. assert (Pj : forall y a, as_decryption y = Some a <-> y = XDecryption a)
        by (intros y a; split; [destruct y; cbn; congruence|intros ->; reflexivity]).
      destruct (proj2 (@range_into C s L H Empty_set _ as_decryption XDecryption e TDecryption ds Pj) Rg) as (txs & G & B).
      unfold e2e_tally. destruct (get_multiple s e TDecryption) as [r|[]|]; try discriminate G. injection G as ->. cbn [bind]. rewrite B. reflexivity.
    Qed.
    (** what the command prints after the audit are the first selections of the votes cast, counted *)
    Theorem C76_printed : laws -> set_up el T contests ->
      forall E h m Q k cast order, honest h -> selects E h -> ended el h -> quorum dbg el T Q h ->
      at_id h (slot0 e TEncryptionKey) (XEncryptionKey k) -> Forall2 (encrypted eg (ek_key k)) (entries el h) cast ->
      audit dbg (filter (fun x => E (id_election (s_id x))) (stored h)) = Ok m -> fair order -> Forall (fun v => v <> []) cast ->
      exists t, e2e_tally order (ms_store m) e = Ok t /\ counts cast t.
    Proof.
      intros L SU E h m Q k cast order Ho Se Ed Qu Ke F A Fo Ne.
      destruct (replayed_decryptions L SU E h m Ho Se A) as (Lm & ds & Hm & Rg & P).
      pose proof (Permutation_trans (Permutation_map dc_vote P) (all_published L SU h Q k cast Ho Ed Qu Ke F)) as Pc.
      assert (Ex : exists t, e2e_tally order (ms_store m) e = Ok t).
      { rewrite (e2e_reads order _ _ _ Hm Rg).
        destruct (e2e_count_iff (map dc_vote ds) [] (add_all bytes_eqb (flat_map (fun v => match v with s :: _ => [(text s, 1%N)] | [] => [] end) (map dc_vote ds)) [])) as [_ X].
        rewrite X; [cbn [bind]; eauto|]. split; [|reflexivity]. rewrite Forall_forall in *. intros v Iv. apply Ne. apply (Permutation_in _ Pc Iv). }
      destruct Ex as (t & Et). exists t. split; [exact Et|].
      destruct (C63_first_selections_partial order _ _ _ _ Fo Hm Et) as (ds' & Rg' & _ & T1 & T2 & T3).
      assert (ds' = ds) as ->. { unfold range_is in Rg, Rg'. rewrite Rg in Rg'. apply TasksFacts.map_inj in Rg'; [auto|intros a b X; congruence]. }
      constructor.
      - exact T1.
      - unfold grand in T2. rewrite <- (Permutation_length Pc), map_length, <- T2.
        clear. induction t as [|p t IH]; [reflexivity|]. cbn [map fold_right]. rewrite IH. reflexivity.
      - intros c n. rewrite T3, chosen_count. rewrite <- (filter_perm_len (chooses c) _ _ Pc), <- filter_map_len.
        apply and_iff_compat_r. split.
        + intros (d & Id & X). exists (dc_vote d). split; [apply (Permutation_in _ Pc), in_map, Id|]. apply first_choice_iff, X.
        + intros (v & Iv & X). apply (Permutation_in _ (Permutation_sym Pc)), in_map_iff in Iv as (d & <- & Id). exists d. split; [exact Id|].
          apply first_choice_iff, X.
    Qed.
    (** the whole command *)
    Theorem C76_command : laws -> set_up el T contests ->
      forall envs (s : rstring) Q k cast order, Forall SpecLedger.honest envs -> sv s = id_to_string e ->
      honest (accepted dbg [] envs) -> selects (shares_prefix e) (accepted dbg [] envs) ->
      ended el (accepted dbg [] envs) -> quorum dbg el T Q (accepted dbg [] envs) ->
      at_id (accepted dbg [] envs) (slot0 e TEncryptionKey) (XEncryptionKey k) ->
      Forall2 (encrypted eg (ek_key k)) (entries el (accepted dbg [] envs)) cast -> fair order -> Forall (fun v => v <> []) cast ->
      exists m t, command_e2e dbg (run dbg [] envs) s = Ok m /\ e2e_tally order (ms_store m) e = Ok t /\ counts cast t.
    Proof.
      intros L SU envs s Q k cast order Hon Hs Ho Se Ed Qu Ke F Fo Ne.
      destruct (C75_audit L SU _ _ Ho Se) as (m & A & _). exists m.
      destruct (C76_printed L SU _ _ m Q k cast order Ho Se Ed Qu Ke F A Fo Ne) as (t & Et & Co). exists t.
      split; [rewrite (command_is_audit dbg envs e s Hon (abbrev_full _ _ Hs)); exact A|]. auto.
    Qed.
    (** one voter who selects nothing is enough for the command to stop without printing *)
    Theorem C76_stopped : laws -> set_up el T contests ->
      forall E h m Q k cast order, honest h -> selects E h -> ended el h -> quorum dbg el T Q h ->
      at_id h (slot0 e TEncryptionKey) (XEncryptionKey k) -> Forall2 (encrypted eg (ek_key k)) (entries el h) cast ->
      audit dbg (filter (fun x => E (id_election (s_id x))) (stored h)) = Ok m -> In [] cast ->
      e2e_tally order (ms_store m) e = Panic PIndex.
    Proof.
      intros L SU E h m Q k cast order Ho Se Ed Qu Ke F A Ie.
      destruct (replayed_decryptions L SU E h m Ho Se A) as (Lm & ds & Hm & Rg & P).
      pose proof (Permutation_trans (Permutation_map dc_vote P) (all_published L SU h Q k cast Ho Ed Qu Ke F)) as Pc.
      apply (Permutation_in _ (Permutation_sym Pc)) in Ie.
      rewrite (e2e_reads order _ _ _ Hm Rg).
      assert (X : forall l t, In [] l -> e2e_count l t = Panic PIndex).
      { induction l as [|v l IH]; intros t I; [destruct I|]. cbn [e2e_count]. destruct v as [|s v]; [reflexivity|].
        cbn [nth_error or_panic bind]. apply IH. destruct I as [I|I]; [discriminate I|exact I]. }
      rewrite X by exact Ie. reflexivity.
    Qed.
  End Election.
End Props.

(** the elections of C73 sent to a node: the hypotheses of all the theorems above hold together *)
Section Case.
  Local Existing Instance ToyE.
  Local Existing Instance ToyET.
  Local Existing Instance Fq.
  Local Existing Instance Gq.
  Definition only (el : ElectionTx) (a : arr 15) : bool := arr_eqb a (id_election (el_id el)).
  Lemma only_selects el h : selects el (only el) h.
  Proof.
    split; [apply arr_eqb_eq; reflexivity|]. intros x _ B. unfold only in B. apply arr_eqb_eq in B. exact B.
  Qed.
  Definition covered el T contests Q cast : Prop :=
    laws toy_scheme e_encrypt el /\ set_up el T contests
    /\ exists h k m (s : rstring), SpecRun.honest e_encrypt true el T contests h /\ selects el (only el) h /\ ended el h /\ quorum true el T Q h
       /\ at_id h (slot0 (el_id el) TEncryptionKey) (XEncryptionKey k) /\ Forall2 (encrypted e_encrypt (ek_key k)) (entries el h) cast
       /\ audit true (filter (fun x => only el (id_election (s_id x))) (stored h)) = Ok m
       /\ sv s = id_to_string (el_id el) /\ Forall SpecLedger.honest (map into_env h) /\ accepted true [] (map into_env h) = h
       /\ selects el (shares_prefix (el_id el)) h.
  Lemma cover el T contests Q cast h k : laws toy_scheme e_encrypt el -> set_up el T contests ->
    SpecRun.honest e_encrypt true el T contests h -> ended el h -> quorum true el T Q h ->
    at_id h (slot0 (el_id el) TEncryptionKey) (XEncryptionKey k) -> Forall2 (encrypted e_encrypt (ek_key k)) (entries el h) cast ->
    Forall (fun x => small 127 (ser_stx x) /\ plain (s_tx x) /\ inside el x) h -> covered el T contests Q cast.
  Proof.
    intros L SU Ho Ed Qu Ke F W. split; [exact L|]. split; [exact SU|]. exists h, k.
    destruct (C75_audit toy_scheme e_encrypt true el T contests L SU (only el) h Ho (only_selects el h)) as (m & A & _). exists m.
    exists (mk_sub (id_to_string (el_id el)) (norm_true (hex_utf8 (id_to_bytes (el_id el))))).
    pose proof (C70_history toy_scheme e_encrypt true el T contests L SU h Ho) as Hh.
    destruct (sent_accepted true h Hh) as [Ac Hon]; [revert W; apply Forall_impl; intros x (X & Y & _); split; assumption|].
    split; [exact Ho|]. split; [apply only_selects|]. split; [exact Ed|]. split; [exact Qu|]. split; [exact Ke|]. split; [exact F|]. split; [exact A|].
    split; [reflexivity|]. split; [exact Hon|]. split; [exact Ac|]. split.
    - rewrite <- prefix_of_election. apply starts_with_spec. exists (skipn 15 (id_to_string (el_id el))). symmetry. apply firstn_skipn.
    - intros x Ix _. rewrite Forall_forall in W. apply (W x Ix).
  Qed.
  Example C76_plain_case : covered elP TP [] QP [yes; no; no] /\ Forall (fun v => v <> []) [yes; no; no].
  Proof.
    split; [|repeat constructor; discriminate].
    destruct C73_plain_case as (L & SU & h & k & _ & Ho & _ & Ed & Qu & Ke & _ & _ & _ & F & W). exact (cover elP TP [] QP _ h k L SU Ho Ed Qu Ke F W).
  Qed.
  Example C76_mix_case : covered elM TM [n32 0] QM [yes; no] /\ Forall (fun v => v <> []) [yes; no].
  Proof.
    split; [|repeat constructor; discriminate].
    destruct C73_mix_case as (L & SU & h & k & _ & Ho & _ & Ed & Qu & Ke & _ & _ & F & W). exact (cover elM TM [n32 0] QM _ h k L SU Ho Ed Qu Ke F W).
  Qed.
  (** so "y" is printed with one vote and "n" with two, in the first *)
  Example C76_printed_case : exists h m, SpecRun.honest e_encrypt true elP TP [] h
    /\ audit true (filter (fun x => only elP (id_election (s_id x))) (stored h)) = Ok m
    /\ exists t, e2e_tally straight (ms_store m) (el_id elP) = Ok t /\ In (sv (lit "y"), 1%N) t /\ In (sv (lit "n"), 2%N) t.
  Proof.
    destruct C76_plain_case as ((L & SU & h & k & m & s & Ho & Se & Ed & Qu & Ke & F & A & _) & Ne). exists h, m. split; [exact Ho|]. split; [exact A|].
    destruct (C76_printed toy_scheme e_encrypt true elP TP [] L SU (only elP) h m QP k _ straight Ho Se Ed Qu Ke F A straight_fair Ne) as (t & Et & [_ _ Co]).
    exists t. split; [exact Et|]. split; apply Co.
    - split; [exists yes; split; [left; reflexivity|exists (sel (lit "y")), [sel (lit "m")]; auto]|]. apply chosen_count. vm_compute. reflexivity.
    - split; [exists no; split; [right; left; reflexivity|exists (sel (lit "n")), []; auto]|]. apply chosen_count. vm_compute. reflexivity.
  Qed.
End Case.

Print Assumptions C75_audit.
Print Assumptions C75_command.
Print Assumptions C76_tally.
Print Assumptions C76_printed.
Print Assumptions C76_command.
Print Assumptions C76_stopped.
