(** * C80: an election run with the commands of the client against one node. *)
From Verif Require Import Base BaseFacts Hex HexFacts Utf8 Cbor Ident BuildId IdentFacts Crypto Types Serde Store SpecStore StoreFacts Prost
  Validate ValidateFacts SpecValid ValidFacts ValidFacts3 SpecHist HistFacts Exonum SpecLedger LedgerFacts Api Audit SpecAudit AuditFacts Encrypt Trustee Tasks SpecTasks TasksFacts3
  Service SpecService ServiceFacts SpecThreshold Lagrange ThresholdFacts SpecRun RunFacts SpecTally Tally SpecSerde SerdeFacts Cli SpecCli CliFacts TransportFacts DecryptFacts
  SpecOutcome OutcomeFacts SpecNet NetFacts SpecDesk Props_Threshold Props_Audit Props_Tally Props_Run Props_Outcome Props_Net Props_Cli Toy ToyT ToyE.
From Coq Require Import ZifyBool ZifyNat ZifyN Sorting.Permutation.
From Coq Require Strings.String.
Import String.StringSyntax.
Open Scope list_scope.

Section Props.
  Context {C : Crypto} {TC : TCrypto} {K : Fld} {M : Mdl} (S : threshold_scheme K M).
  Context (shellexpand : rstring -> option rstring).
  Context {R : Type} (eg : EGPublicKey -> R -> bytes -> Ciphertext * R).
  Variables (dbg : bool) (id : arr 15) (sk : ed_secret) (el : ElectionTx).
  Notation e := (el_id el).
  Notation Blk := (list (option Env)).
  Notation desk := (desk shellexpand eg dbg id sk el).
  (** the only trustee *)
  Definition alone : people := [(mk_trustee (ed_public sk) x01 (u_of 8 1) x01, sk)].
  Notation network := (network eg dbg el alone [u_of 4 0]).
  Notation recorded_by := (recorded_by dbg).
  Hypothesis St : started_with id sk el.
  Hypothesis L : laws S eg el.
  Hypothesis Fc : fits_cipher eg.

  Lemma started_is : el = norm_election (made id (ed_public sk)).
  Proof.
    destruct St as (x & y & A & B & D). destruct (election_made id sk) as (A' & T). assert (x = by_key sk (XElection (made id (ed_public sk)))) as -> by congruence.
    pose proof (env_carries _ T) as B'. unfold carries in B, B'. assert (y = norm_stx (by_key sk (XElection (made id (ed_public sk))))) as -> by congruence.
    cbn [norm_stx by_key s_tx norm_tx] in D. congruence.
  Qed.
  Lemma desk_id : e = zero_slot id TElection.
  Proof. rewrite started_is. reflexivity. Qed.
  Lemma desk_set_up : set_up el alone [u_of 4 0].
  Proof.
    rewrite started_is. split; cbn [alone map fst snd tr_index tr_public_key el_trustees norm_election made norm_trustee el_threshold el_mix_config el_contests].
    - apply Permutation_refl.
    - intros p [<-|[]]. reflexivity.
    - repeat constructor. intros [].
    - intros [|a1 a] p b q d E; [destruct b; discriminate E|destruct a; discriminate E].
    - split; cbn [map length fst tr_index].
      + repeat constructor. intros [].
      + intros p [<-|[]]. vm_compute. split; discriminate.
      + intros p [<-|[]]. reflexivity.
      + intros p [<-|[]]. reflexivity.
      + vm_compute. split; discriminate.
    - right. reflexivity.
    - discriminate.
    - repeat constructor. intros [].
  Qed.
  Notation SU := desk_set_up.
  Lemma desk_node : node el alone sk.
  Proof. left. eexists. split; [left; reflexivity|reflexivity]. Qed.
  Lemma desk_authority : ed_public sk = el_authority el.
  Proof. rewrite started_is. reflexivity. Qed.
  Lemma desk_ballot : client_ballot el.
  Proof.
    rewrite started_is. cbn [norm_election made el_ballots client_ballot]. eexists. split.
    - exists [], []. split; [reflexivity|]. split; [reflexivity|]. intros a [].
    - exists (u_of 4 0). split; [left; reflexivity|reflexivity].
  Qed.

  Notation key := (ts_key S (joint_key S alone e)).
  (** the recorded vote holds what was typed *)
  Definition holds_text (v : VoteTx) (p : PublicKey * rstring) : Prop :=
    vt_key v = fst p /\ exists ev, vt_votes v = [ev] /\ ev_contest ev = u_of 4 0 /\ encrypted eg key ev (ballot_for p).
  Definition known (x : STx) : Prop :=
    inside el x \/ outside el x /\ shares_prefix e (id_election (s_id x)) = false /\ forall el', s_tx x = XElection el' -> ~ is_trustee el' (ed_public sk).
  Definition inv (bs : list Blk) (b : Blk) (cast : list (PublicKey * rstring)) : Prop :=
    network bs b /\ (forall x, In x (recorded_by (bs ++ [b])) -> known x) /\ Forall2 holds_text (votes_of el (recorded_by (bs ++ [b]))) cast.

  Lemma votes_snoc h x : votes_of el (h ++ [x]) = votes_of el h ++ votes_of el [x].
  Proof. apply flat_map_app. Qed.
  Lemma step bs b en : let h := recorded_by (bs ++ [b]) in
    recorded_by (bs ++ [b ++ [Some en]]) = h /\ (forall L', verify_and_store dbg (ledger_after dbg (bs ++ [b])) en <> Ok L')
    \/ exists x L', recorded_by (bs ++ [b ++ [Some en]]) = h ++ [x] /\ verify_and_store dbg (ledger_after dbg (bs ++ [b])) en = Ok L' /\ carries en x.
  Proof.
    intros h. unfold h, SpecNet.recorded_by. rewrite env_fill, accepted_app. change (run dbg [] (envelopes (bs ++ [b]))) with (ledger_after dbg (bs ++ [b])).
    cbn [accepted]. destruct (verify_and_store dbg _ en) as [L'| |] eqn:V.
    - pose proof V as V'. apply store_ok in V' as (_ & (x & D & _) & _). right. exists x, L'. pose proof D as D'. unfold carries in D'. rewrite D'. auto.
    - left. rewrite app_nil_r. split; [reflexivity|discriminate].
    - left. rewrite app_nil_r. split; [reflexivity|discriminate].
  Qed.
  (** an envelope that brings no vote *)
  Lemma inv_quiet bs b cast en : inv bs b cast -> origin eg dbg el alone [u_of 4 0] bs (recorded_by (bs ++ [b])) en ->
    (forall x, carries en x -> known x /\ (forall v, s_tx x = XVote v -> vt_election v <> e)) -> inv bs (b ++ [Some en]) cast.
  Proof.
    intros (Nw & Kn & F) Or Q. split; [apply nw_env; assumption|]. destruct (step bs b en) as [(-> & _)|(x & L' & -> & _ & Ca)]; [auto|].
    destruct (Q x Ca) as [Kx Nv]. split.
    - intros z Iz. apply in_app_or in Iz as [Iz|[<-|[]]]; auto.
    - rewrite votes_snoc. replace (votes_of el [x]) with (@nil VoteTx); [rewrite app_nil_r; exact F|].
      unfold votes_of. cbn [flat_map]. destruct (s_tx x) as [t|t|t|t|t|t|t|t|t|t]; try reflexivity.
      destruct (id_eqb (vt_election t) e) eqn:E; [|reflexivity]. apply id_eqb_eq in E. destruct (Nv t eq_refl E).
  Qed.
  Lemma chain bs b : network bs b -> Forall SpecLedger.honest (envelopes (bs ++ [b])) /\ history dbg (recorded_by (bs ++ [b]))
    /\ started eg dbg el alone [u_of 4 0] (recorded_by (bs ++ [b])).
  Proof.
    intros Nw. pose proof (nw_commit _ _ _ _ _ bs b Nw) as Nw'. destruct L as [DH Op Sc Si En Sh Ve Re].
    destruct (net_chain S DH Op Sc eg dbg el alone _ SU Ve _ Nw') as (F & _ & Sd & Hh & _). auto.
  Qed.
  (** the encryption key that the client reads *)
  Lemma fetch_in Ld i x : lwf Ld -> honest_ledger Ld -> fetch Ld i = Ok x -> In x (decoded Ld) /\ s_id x = i.
  Proof.
    intros W HL. unfold fetch, get_tx. cbn [sv]. destruct (bt_get Ld (id_to_string i)) as [en|] eqn:G; [|discriminate].
    cbn [ok_or bind]. apply (bt_get_in _ _ _ (lw_sorted _ W)) in G. destruct (HL _ _ G) as (y & Ca & Ex).
    unfold api_decode. pose proof Ca as Ca'. unfold carries in Ca'. rewrite Ca'. cbn [map_err]. intros Fe. assert (y = x) by congruence. subst y. split.
    - apply (decoded_in _ _ W HL). exists en. rewrite <- Ex. auto.
    - apply id_to_string_inj. symmetry. exact Ex.
  Qed.
  Lemma fetch_at bs i x : Forall SpecLedger.honest (envelopes bs) -> fetch (ledger_after dbg bs) i = Ok x -> at_id (recorded_by bs) i (s_tx x).
  Proof.
    intros F1 Fe. destruct (honest_run0 dbg _ F1) as (Hh & HL & D & W).
    destruct (fetch_in _ i x W HL Fe) as [A B]. exists x. split; [|auto]. apply (hist_stored dbg _ x Hh). rewrite <- D. exact A.
  Qed.
  Lemma key_at bs k : network bs [] -> at_id (recorded_by bs) (slot0 e TEncryptionKey) (XEncryptionKey k) -> ek_key k = key /\ ek_election k = e.
  Proof.
    intros Nw At. pose proof (net_honest S eg dbg el alone [u_of 4 0] L SU bs _ _ Nw At eq_refl) as Ho.
    destruct L as [DH Op Sc Si En Sh Ve Re]. destruct (net_chain S DH Op Sc eg dbg el alone _ SU Ve _ Nw) as (_ & _ & _ & Hh & _).
    destruct (at_enckey S DH Op Sc eg dbg el alone [u_of 4 0] SU _ k Ho Hh At) as [-> _]. split; reflexivity.
  Qed.
  Lemma vote_of h x : SpecRun.honest eg dbg el alone [u_of 4 0] h -> history dbg h -> In x h -> in_range e TVote x -> exists v, s_tx x = XVote v /\ vt_election v = e
    /\ arr_l (id_unique (s_id x)) = firstn 16 (arr_l (sv (vt_key v))).
  Proof.
    intros Ho Hh Ix [Ex Tx]. destruct (hist_accepted dbg h x Hh Ix) as (pre & post & Eh & Hp & _ & Va).
    apply (validate_iff _ _ (stored_holds pre)) in Va as (Ty & _ & Va). rewrite Ty in Tx. unfold s_type in Tx.
    destruct (s_tx x) as [t|t|t|t|t|v|t|t|t|t] eqn:Et; try discriminate Tx. cbn [ok_tx] in Va. destruct Va as (el0 & At & (Ei & _ & Ui) & _).
    exists v. split; [reflexivity|]. split.
    - destruct L as [DH Op Sc Si En Sh Ve Re]. destruct (inside_vote S DH Op Sc eg dbg el alone [u_of 4 0] SU h x v Ho Hh Ix Ex Et) as (a & b & _ & V & _).
      exact (vo_election _ _ _ _ _ V).
    - unfold s_id. rewrite Et. exact Ui.
  Qed.
  Lemma in_votes h x v : In x h -> s_tx x = XVote v -> vt_election v = e -> In v (votes_of el h).
  Proof.
    intros Ix Tx Ev. apply in_flat_map. exists x. split; [exact Ix|]. rewrite Tx, Ev, id_eqb_refl. left. reflexivity.
  Qed.
  Lemma ledger_run bs b : ledger_after dbg (bs ++ [b]) = run dbg [] (envelopes (bs ++ [b])).
  Proof. reflexivity. Qed.
  Lemma prefix_apart s t : firstn 15 s <> firstn 15 t -> 15 <= length t -> starts_with s (firstn 15 t) = false.
  Proof.
    intros N Ln. destruct (starts_with s (firstn 15 t)) eqn:E; [|reflexivity]. apply starts_with_spec in E as (r & ->). destruct N.
    rewrite firstn_app, firstn_firstn, firstn_length. replace (15 - Nat.min 15 (length t)) with 0 by lia. apply app_nil_r.
  Qed.
  (** what was typed, as the nodes receive it *)
  Lemma vote_step bs b cast vk rng election election' vote vote' x : inv bs b cast ->
    argument shellexpand id election election' -> text shellexpand vote vote' -> new_voter vk cast ->
    cli_vote shellexpand eg (ledger_after dbg bs) rng vk election vote = Ok x ->
    exists v, s_tx x = XVote v /\ vt_election v = e /\ holds_text v (ed_public vk, vote') /\ carries (into_env x) x /\ inside el x
      /\ origin eg dbg el alone [u_of 4 0] bs (recorded_by (bs ++ [b])) (into_env x)
      /\ ((exists L', verify_and_store dbg (ledger_after dbg (bs ++ [b])) (into_env x) = Ok L') <-> ~ ended el (recorded_by (bs ++ [b]))).
  Proof.
    intros (Nw & Kn & F) (E1 & Nm) (E2 & Ln) (Nv & Nc) Cv.
    destruct (chain bs b Nw) as (Fh & Hh & Sd). set (h := recorded_by (bs ++ [b])) in *.
    assert (Nwb : network bs []) by (apply (net_prefix eg dbg el alone [u_of 4 0] bs [] b); rewrite app_nil_r; exact Nw).
    assert (Fb : Forall SpecLedger.honest (envelopes bs)) by (rewrite env_app in Fh; apply Forall_app in Fh; apply Fh).
    (* the key that the client read *)
    assert (Ky : exists xk k, fetch (ledger_after dbg bs) (zero_slot id TEncryptionKey) = Ok xk /\ s_tx xk = XEncryptionKey k).
    { clear -Cv E1 E2 Nm. revert Cv. unfold cli_vote, expand. rewrite E1, E2. cbn [ok_or bind]. rewrite (names_id _ _ TEncryptionKey Nm). cbn [or_panic bind].
      destruct (fetch (ledger_after dbg bs) (zero_slot id TEncryptionKey)) as [xk| |]; try discriminate. cbn [bind]. unfold into_typed.
      destruct (s_tx xk) as [t|t|t|t|k|t|t|t|t|t] eqn:Tk; try discriminate. intros _. eauto. }
    destruct Ky as (xk & k & Fe & Tk).
    pose proof (fetch_at bs _ xk Fb Fe) as At. rewrite Tk in At. assert (Sl : zero_slot id TEncryptionKey = slot0 e TEncryptionKey) by (rewrite desk_id; reflexivity).
    pose proof At as At'. rewrite Sl in At'. destruct (key_at bs k Nwb At') as [Kk Ke].
    assert (Ke' : ek_election k = zero_slot id TElection) by (rewrite Ke; apply desk_id).
    destruct (vote_made shellexpand eg Fc (ledger_after dbg bs) rng vk election vote election' vote' id xk k E1 E2 Nm Ln Fe Tk Ke') as (Cv' & Tr).
    set (ct := fst (eg (ek_key k) rng (sel_encode (mk_selection true (u_of 4 0) vote')))) in *. set (v := made_vote id (ed_public vk) ct) in *.
    assert (x = by_key vk (XVote v)) as -> by congruence. clear Cv'.
    assert (Ath : at_id h (zero_slot id TEncryptionKey) (XEncryptionKey k)).
    { unfold h. rewrite by_app. destruct At as (z & Iz & Ez). exists z. split; [apply in_or_app; left; exact Iz|exact Ez]. }
    assert (Ho : SpecRun.honest eg dbg el alone [u_of 4 0] h).
    { destruct Ath as (z & Iz & Ez & _). apply (honest_of eg dbg el alone [u_of 4 0] h z Sd Iz). unfold inside. rewrite Ez, desk_id. reflexivity. }
    assert (Ap : forall z, votes_in el h z -> firstn 10 (arr_l (id_unique (s_id z))) <> firstn 10 (arr_l (sv (ed_public vk)))).
    { intros z (Iz & Rz). destruct (vote_of h z Ho Hh Iz Rz) as (w & Tw & Ew & ->). rewrite firstn_firstn. change (Nat.min 10 16) with 10.
      destruct (Forall2_in_l _ _ _ _ F (in_votes h z w Iz Tw Ew)) as ([pk t] & Ip & Kp & _). cbn [fst] in Kp. rewrite Kp. exact (Nv pk t Ip). }
    assert (Enc : encrypted eg key (mk_encvote (u_of 4 0) [ct]) [mk_selection true (u_of 4 0) vote']).
    { split.
      - constructor; [|constructor]. unfold writable. cbn [sel_text]. clear -Ln. lia.
      - exists rng. cbn [ev_selections encrypt_vote]. rewrite <- Kk. unfold ct. destruct (eg (ek_key k) rng _) as [c r']. reflexivity. }
    assert (Ca : carries (into_env (by_key vk (XVote v))) (by_key vk (XVote v))) by exact (env_carries _ Tr).
    assert (Ve : vt_election v = e) by (symmetry; exact desk_id).
    exists v. split; [reflexivity|]. split; [exact Ve|]. split.
    { split; [reflexivity|]. eexists. split; [reflexivity|]. split; [reflexivity|exact Enc]. }
    split; [exact Ca|]. split; [unfold inside; rewrite desk_id; reflexivity|]. split.
    - apply (or_vote _ _ _ _ _ _ _ _ (by_key vk (XVote v)) v); [apply env_honest, Tr|exact Ca|reflexivity|]. split.
      + exact Ve.
      + exists k. split; [rewrite <- Sl; exact Ath|]. intros ev [<-|[]]. eexists. rewrite Kk. exact Enc.
      + repeat constructor. intros [].
      + exact Ap.
      + intros _. split; [apply Permutation_refl|]. intros l Nd Al.
        assert (Le : length l <= length (votes_of el h)).
        { rewrite <- (map_length XVote (votes_of el h)), <- (map_length s_tx l). apply NoDup_incl_length.
          - assert (Inj : forall z z', In z l -> In z' l -> s_tx z = s_tx z' -> z = z').
            { intros z z' Iz Iz' E. apply (hist_unique dbg h); [exact Hh|apply (Al z Iz)|apply (Al z' Iz')|]. unfold s_id. rewrite E. reflexivity. }
            clear -Nd Inj. induction Nd as [|a l Na Nd IH]; cbn [map]; constructor.
            + intros X. apply in_map_iff in X as (c & Ec & Ic). apply Na. rewrite (Inj a c); [exact Ic|left; reflexivity|right; exact Ic|symmetry; exact Ec].
            + apply IH. intros z z' Iz Iz'. apply Inj; right; assumption.
          - intros t It. apply in_map_iff in It as (z & <- & Iz). destruct (Al z Iz) as (I1 & R1). destruct (vote_of h z Ho Hh I1 R1) as (w & Tw & Ew & _).
            rewrite Tw. apply in_map, (in_votes h z w I1 Tw Ew). }
        rewrite (Forall2_length _ _ _ F) in Le. clear -Le Nc. lia.
    - destruct (C68_vote_partial shellexpand eg (la_sign _ _ _ L) Fc dbg (envelopes (bs ++ [b])) rng vk election vote election' vote' id k Fh E1 E2 Nm Ln Ath Ke')
        as (x' & v' & ev' & sel' & el' & Cx & _ & _ & _ & _ & _ & _ & _ & _ & Ael & Iff).
      assert (el' = el).
      { assert (X : XElection el' = XElection el); [|congruence]. apply (at_fun dbg h (zero_slot id TElection) _ _ Hh Ael).
        rewrite <- desk_id. apply (election_at eg dbg el alone [u_of 4 0] h Ho). }
      subst el'. destruct Ath as (z & Iz & Ez & Tz).
      assert (Fz : fetch (run dbg [] (envelopes (bs ++ [b]))) (zero_slot id TEncryptionKey) = Ok z).
      { destruct (honest_run0 dbg _ Fh) as (_ & HL & D & W). apply (fetch_honest _ _ z W HL); [|exact Ez]. rewrite D. apply (hist_stored dbg _ z Hh), Iz. }
      destruct (vote_made shellexpand eg Fc _ rng vk election vote election' vote' id z k E1 E2 Nm Ln Fz Tz Ke') as (Cz & _).
      rewrite Cx in Cz. injection Cz as Cz. rewrite Cz in Iff. fold ct in Iff. fold v in Iff. rewrite <- (ledger_run bs b) in Iff. rewrite Iff. clear Iff Cz Cx.
      unfold ended. replace (slot0 e TVotingEnd) with (zero_slot id TVotingEnd) by (rewrite desk_id; reflexivity). split; [intros (_ & A & _); exact A|].
      intros A. split; [exact desk_ballot|]. split; [exact A|].
      intros y Iy Ey Ty. assert (Vy : votes_in el h y) by (split; [exact Iy|]; split; [rewrite desk_id; exact Ey|exact Ty]).
      pose proof (Ap y Vy) as Na. split; intros E; apply Na; rewrite E.
      + rewrite firstn_firstn. reflexivity.
      + rewrite firstn_app, firstn_firstn. replace (10 - length _) with 0; [apply app_nil_r|]. rewrite firstn_length, arr_len. reflexivity.
  Qed.
  (** ** whatever is typed, and whatever blocks the node makes of it, is a network of honest nodes *)
  Lemma desk_inv bs b cast : desk bs b cast -> inv bs b cast.
  Proof.
    induction 1 as [|bs b cast D IH|bs b cast D IH|bs b cast en D IH He Hr El|bs b cast x D IH Cx|bs b cast bs1 bs2 out en D IH Eb Nb Sd Io Wr
                   |bs b cast vk rng election election' vote vote' x D IH A T Nv Cv Ed|bs b cast vk rng election election' vote vote' x D IH A T Nv Cv Ed
                   |bs b cast election election' x D IH A Cx Ke].
    - split; [constructor|]. split; [intros x []|constructor].
    - destruct IH as (Nw & Kn & F). split; [constructor; exact Nw|]. unfold SpecNet.recorded_by in *. rewrite env_empty. auto.
    - destruct IH as (Nw & Kn & F). split; [constructor; exact Nw|]. unfold SpecNet.recorded_by in *. rewrite env_fill, app_nil_r. auto.
    - apply inv_quiet; [exact IH|apply or_other; [exact He|exact Hr|]; intros x Ca; apply (El x Ca)|].
      intros x Ca. destruct (El x Ca) as (Out & Px & Nt). split.
      + right. split; [exact Out|]. split; [|exact Nt]. rewrite <- prefix_of_election. apply prefix_apart; [exact Px|]. unfold id_to_string, id_to_bytes. rewrite hex_encode_app, app_length, hex_encode_length, arr_len. lia.
      + intros v Tv Ev. destruct Out as [_ Out]. rewrite Tv in Out. apply Out. cbn [named_election]. congruence.
    - destruct (election_made id sk) as (Cx' & Tr). assert (x = by_key sk (XElection (made id (ed_public sk)))) as -> by congruence.
      pose proof (env_carries _ Tr) as Ca. apply inv_quiet; [exact IH| |].
      + eapply or_start; [apply env_honest, Tr|exact Ca|]. cbn [norm_stx by_key s_tx norm_tx]. rewrite <- started_is. reflexivity.
      + intros y Cy. assert (y = norm_stx (by_key sk (XElection (made id (ed_public sk))))) as -> by (unfold carries in *; congruence). split.
        * left. unfold inside. rewrite desk_id. reflexivity.
        * intros v Tv. discriminate Tv.
    - apply inv_quiet; [exact IH|apply (or_node _ _ _ _ _ _ _ _ bs1 bs2 sk out); try assumption; apply desk_node|]. destruct IH as (Nw & Kn & F).
      destruct (chain bs b Nw) as (Fh & Hh & Sd'). subst bs. rewrite <- app_assoc in *. set (h1 := recorded_by bs1). rewrite by_app in *. fold h1 in Hh, Sd', Kn.
      rewrite env_app in Fh. apply Forall_app in Fh as (F1 & _).
      pose proof L as [DH Op Sc Si En Sh Ve Re].
      pose proof (started_prefix S DH Op Sc eg dbg el alone [u_of 4 0] SU Ve h1 _ Sd' Hh) as St1. pose proof (hist_prefix dbg _ _ Hh) as Hh1.
      destruct (sends_inv dbg sk bs1 out en Nb F1 Sd Io) as (r & en0 & x' & l & y & _ & _ & Ix & G & Iy & Ey & _). fold h1 in Ix, G.
      destruct (gen_follows dbg sk r _ _ x' l y (stored_holds h1) G Iy) as (Ny & Iy' & Pl). pose proof (written_small _ y Wr Ey) as Sm.
      pose proof (env_carries y Sm) as Cy. rewrite (sendable_norm y) in Cy by (split; assumption). rewrite <- Ey in Cy.
      intros z Cz. assert (z = y) by (unfold carries in *; congruence). subst z. clear Cz. split.
      + destruct (started_split S DH Op Sc eg dbg el alone [u_of 4 0] SU Ve _ x' St1 Hh1 Ix) as [In1|Out1].
        * left. unfold inside. rewrite Iy'. f_equal.
          exact (inside_names S DH Op Sc eg dbg el alone [u_of 4 0] SU Ve h1 x' (honest_of eg dbg el alone [u_of 4 0] _ x' St1 Ix In1) Hh1 Ix In1).
        * right. pose proof (answer_outside S DH Op Sc eg dbg el alone [u_of 4 0] SU Ve h1 sk r x' l y St1 Hh1 Ix Out1 G Iy) as Oy. split; [exact Oy|].
          assert (Hz : exists z, In z h1 /\ id_election (s_id z) = id_election (s_id y)).
          { rewrite Iy'. destruct (named_election (s_tx x')) as [e'|] eqn:Nx.
            - destruct (election_total dbg h1 Hh1 x' e' Ix Nx) as (el' & At). apply (hist_at_id dbg _ _ _ Hh1) in At as (z & Iz & Ez & _). exists z. split; [exact Iz|].
              rewrite Ez. destruct (s_tx x'); try discriminate Nx; injection Nx as <-; reflexivity.
            - exists x'. split; [exact Ix|]. destruct (s_tx x') as [t|t|t|t|t|t|t|t|t|t] eqn:Tx; try discriminate Nx. unfold s_id. rewrite Tx. reflexivity. }
          destruct Hz as (z & Iz & Ez). split.
          -- rewrite <- Ez. destruct (Kn z) as [Inz|(_ & P & _)]; [apply in_or_app; left; exact Iz| |exact P].
             exfalso. destruct Oy as [Oy _]. apply Oy. unfold inside in *. congruence.
          -- intros el' Ty. rewrite Ty in Ny. discriminate Ny.
      + intros v Tv. pose proof (gen_inv dbg sk r _ x' l y _ (stored_holds h1) G Iy) as An. unfold answer in An. rewrite Tv in An. destruct An.
    - destruct (vote_step bs b cast vk rng election election' vote vote' x IH A T Nv Cv) as (v & Tx & Ev & Ht & Ca & Ins & Or & Iff).
      destruct IH as (Nw & Kn & F). split; [apply nw_env; assumption|]. destruct (step bs b (into_env x)) as [(_ & No)|(y & L' & -> & V & Cy)].
      + exfalso. destruct (proj2 Iff Ed) as (L' & V). exact (No L' V).
      + assert (y = x) by (unfold carries in *; congruence). subst y. split.
        * intros z Iz. apply in_app_or in Iz as [Iz|[<-|[]]]; [auto|]. left. exact Ins.
        * rewrite votes_snoc. apply Forall2_app; [exact F|]. unfold votes_of. cbn [flat_map]. rewrite Tx, Ev, id_eqb_refl. constructor; [exact Ht|constructor].
    - destruct (vote_step bs b cast vk rng election election' vote vote' x IH A T Nv Cv) as (v & Tx & Ev & Ht & Ca & Ins & Or & Iff).
      destruct IH as (Nw & Kn & F). split; [apply nw_env; assumption|]. destruct (step bs b (into_env x)) as [(-> & _)|(y & L' & _ & V & _)]; [auto|].
      exfalso. apply (proj1 Iff); [exists L'; exact V|exact Ed].
    - destruct A as (E1 & Nm). destruct (end_made shellexpand sk election election' id E1 Nm) as (Cx' & Tr).
      assert (x = by_key sk (XVotingEnd (made_end id (ed_public sk)))) as -> by congruence.
      pose proof (env_carries _ Tr) as Ca. apply inv_quiet; [exact IH| |].
      + eapply or_end; [apply env_honest, Tr|exact Ca|reflexivity|symmetry; exact desk_id|rewrite desk_id; reflexivity|exact Ke].
      + intros y Cy. assert (y = norm_stx (by_key sk (XVotingEnd (made_end id (ed_public sk))))) as -> by (unfold carries in *; congruence). split.
        * left. unfold inside. rewrite desk_id. reflexivity.
        * intros v Tv. discriminate Tv.
  Qed.

  (** ** C80: the nodes of the election never see anything but the network of C77; the votes recorded are those
      typed in before the end, in order, each with its text encrypted under the key of the election *)
  Theorem C80_recorded bs b cast : desk bs b cast -> network bs b /\ Forall2 holds_text (votes_of el (recorded_by (bs ++ [b]))) cast.
  Proof. intros D. destruct (desk_inv bs b cast D) as (A & _ & B). auto. Qed.
  Lemma done bs cast : desk bs [] cast -> network bs [] /\ (forall x, In x (recorded_by bs) -> known x) /\ Forall2 holds_text (votes_of el (recorded_by bs)) cast.
  Proof. intros D. destruct (desk_inv bs [] cast D) as (A & B & F). unfold SpecNet.recorded_by in *. rewrite env_empty in *. auto. Qed.
  Lemma desk_dedicated bs cast : desk bs [] cast -> dedicated dbg el sk bs.
  Proof.
    intros D x el' Ix Tx Out. destruct (done bs cast D) as (_ & Kn & _). destruct (Kn x Ix) as [Ins|(_ & _ & Nt)]; [|exact (Nt el' Tx)].
    destruct Out as [Out _]. contradiction.
  Qed.
  Lemma desk_selects bs cast : desk bs [] cast -> selects el (shares_prefix e) (recorded_by bs).
  Proof.
    intros D. split.
    - rewrite <- prefix_of_election. apply starts_with_spec. exists (skipn 15 (id_to_string e)). symmetry. apply firstn_skipn.
    - intros x Ix Px. destruct (done bs cast D) as (_ & Kn & _). destruct (Kn x Ix) as [Ins|(_ & P & _)]; [exact Ins|congruence].
  Qed.
  (** the node goes on with the blocks that hold what it sends *)
  Lemma desk_filled bs cast : desk bs [] cast -> bs <> [] -> forall out, sends dbg sk bs out -> forall l, (forall en, In en l -> In en out /\ written en) ->
    desk bs (map Some l) cast.
  Proof.
    intros D Nb out Sd l. induction l as [|en l IH] using rev_ind; intros H; [exact D|]. rewrite map_app.
    destruct (H en) as [Io Wr]; [apply in_or_app; right; left; reflexivity|].
    apply (dk_node _ _ _ _ _ _ bs (map Some l) cast bs [] out en); try assumption; [|symmetry; apply app_nil_r].
    apply IH. intros en' I. apply H, in_or_app. left. exact I.
  Qed.
  Lemma desk_driven (r : nat -> Rnd) cast : forall n bs, desk bs [] cast -> bs <> [] ->
    let new := driven dbg r [sk] (fold_left (commit dbg) bs genesis) n in all_written new -> desk (bs ++ new) [] cast.
  Proof.
    induction n as [|n IH]; intros bs D Nb new W; subst new; cbn [driven] in *; [rewrite app_nil_r; exact D|].
    set (outs := flat_map _ [sk]) in *. cbv zeta in *.
    assert (Db : desk bs (map Some outs) cast).
    { assert (Wr : forall en, In en outs -> written en) by (intros en I; apply (W (map Some outs) en); [left; reflexivity|apply in_map, I]).
      unfold outs in *. cbn [flat_map] in *. rewrite app_nil_r in *. destruct (after_commit dbg sk r (fold_left (commit dbg) bs genesis)) as [out| |] eqn:A.
      - apply (desk_filled bs cast D Nb out); [exists r; exact A|]. intros en I. split; [exact I|apply Wr, I].
      - exact D.
      - exact D. }
    specialize (IH (bs ++ [map Some outs])). rewrite fold_left_app in IH. cbn [fold_left] in IH. rewrite <- app_assoc in IH. cbn [app] in IH. apply IH.
    - apply dk_commit, Db.
    - destruct bs; discriminate.
    - intros b en Ib. apply W. right. exact Ib.
  Qed.
  Lemma settles (r : nat -> Rnd) bs cast n : desk bs [] cast -> bs <> [] -> delivered dbg el sk bs ->
    let new := driven dbg r [sk] (fold_left (commit dbg) bs genesis) n in 16 <= n -> all_written new ->
    network (bs ++ new) [] /\ settled dbg el (bs ++ new) /\ delivered dbg el sk (bs ++ new).
  Proof.
    intros D Nb De new Le W. destruct (done bs cast D) as (Nw & _).
    assert (Nn : forall sk', In sk' [sk] -> node el alone sk') by (intros sk' [<-|[]]; apply desk_node).
    destruct (driven_on S eg dbg el alone [u_of 4 0] L SU r bs [sk] n Nw Nb Nn) as (Nw' & Ro & Ln); [|exact W|].
    { intros sk' [<-|[]]. split; [exact De|exact (desk_dedicated bs cast D)]. }
    fold new in Nw', Ro, Ln. rewrite <- Ln in Le. pose proof L as [DH Op Sc Si En Sh Ve Re]. split; [exact Nw'|]. split.
    - exact (rounds_settle S DH Op Sc eg dbg el alone [u_of 4 0] SU Ve _ bs Nn new Ro Nw' Nb Le).
    - exact (rounds_deliver S DH Op Sc Si eg dbg el alone [u_of 4 0] SU Ve _ bs Nn new Ro Nw' Nb sk (or_introl eq_refl) De).
  Qed.
  (** the command that starts the election has it recorded *)
  Theorem C80_start bs b cast : desk bs b cast -> exists x, cli_election id sk = Ok x
    /\ desk bs (b ++ [Some (into_env x)]) cast /\ at_id (recorded_by (bs ++ [b ++ [Some (into_env x)]])) e (XElection el).
  Proof.
    intros D. destruct (desk_inv bs b cast D) as (Nw & _). pose proof (nw_commit _ _ _ _ _ bs b Nw) as Nw'. pose proof L as [DH Op Sc Si En Sh Ve Re].
    destruct (net_chain S DH Op Sc eg dbg el alone _ SU Ve _ Nw') as (_ & _ & Sd & _ & _ & _ & Oc).
    destruct (election_made id sk) as (Cx & Tr). exists (by_key sk (XElection (made id (ed_public sk)))). split; [exact Cx|]. split; [apply dk_election; assumption|].
    pose proof (env_carries _ Tr) as Ca. set (x := by_key _ _) in *. destruct (step bs b (into_env x)) as [(-> & No)|(y & L' & -> & V & Cy)].
    - destruct (occupied_dec (recorded_by (bs ++ [b])) (zero_slot id TElection)) as [(z & Iz & Ez)|O].
      + apply (election_at eg dbg el alone [u_of 4 0]), (honest_of eg dbg el alone [u_of 4 0] _ z Sd Iz). unfold inside. rewrite Ez, desk_id. reflexivity.
      + exfalso. destruct (C67_election_accepted Si dbg (ledger_after dbg (bs ++ [b])) id sk) as (x' & _ & _ & Cx' & V & _).
        * intros en I. apply O, Oc. exists en. exact I.
        * assert (x' = x) as -> by congruence. exact (No _ V).
    - exists y. split; [apply in_or_app; right; left; reflexivity|].
      assert (y = norm_stx x) as -> by (unfold carries in *; congruence). rewrite started_is. split; reflexivity.
  Qed.
  (** sixteen blocks after the election the key is there *)
  Theorem C80_key (r : nat -> Rnd) bs cast n : desk bs [] cast -> bs <> [] -> at_id (recorded_by bs) e (XElection el) -> delivered dbg el sk bs ->
    let new := driven dbg r [sk] (fold_left (commit dbg) bs genesis) n in 16 <= n -> all_written new ->
    desk (bs ++ new) [] cast /\ exists k, at_id (recorded_by (bs ++ new)) (slot0 e TEncryptionKey) (XEncryptionKey k) /\ ek_key k = key.
  Proof.
    intros D Nb Es De new Le W. split; [exact (desk_driven r cast n bs D Nb W)|].
    destruct (settles r bs cast n D Nb De Le W) as (Nw & Se & De').
    apply (C78_key S eg dbg el alone [u_of 4 0] L SU (bs ++ new) sk Nw); try assumption.
    - destruct (by_prefix dbg bs new) as (h' & ->). destruct Es as (x & Ix & Ex). exists x. split; [apply in_or_app; left; exact Ix|exact Ex].
    - apply desk_node.
    - apply desk_authority.
    - intros p [<-|[]]. exact De'.
  Qed.
  (** from then on, as long as voting has not ended, every new voter's command succeeds and its vote is recorded *)
  Theorem C80_vote bs b cast k vk rng election election' vote vote' : desk bs b cast ->
    at_id (recorded_by bs) (slot0 e TEncryptionKey) (XEncryptionKey k) -> ~ ended el (recorded_by (bs ++ [b])) ->
    argument shellexpand id election election' -> text shellexpand vote vote' -> new_voter vk cast ->
    exists x, cli_vote shellexpand eg (ledger_after dbg bs) rng vk election vote = Ok x
      /\ desk bs (b ++ [Some (into_env x)]) (cast ++ [(ed_public vk, vote')])
      /\ In x (recorded_by (bs ++ [b ++ [Some (into_env x)]])).
  Proof.
    intros D At Ed A T Nv. destruct (desk_inv bs b cast D) as (Nw & _). destruct (chain bs b Nw) as (Fh & _).
    assert (Fb : Forall SpecLedger.honest (envelopes bs)) by (rewrite env_app in Fh; apply Forall_app in Fh; apply Fh).
    assert (Nwb : network bs []) by (apply (net_prefix eg dbg el alone [u_of 4 0] bs [] b); rewrite app_nil_r; exact Nw).
    destruct (key_at bs k Nwb At) as [Kk Ke]. destruct At as (xk & Ik & Ek & Tk).
    assert (Fe : fetch (ledger_after dbg bs) (zero_slot id TEncryptionKey) = Ok xk).
    { destruct (honest_run0 dbg _ Fb) as (Hh & HL & Dd & W). apply (fetch_honest _ _ xk W HL); [rewrite Dd; apply (hist_stored dbg _ xk Hh), Ik|].
      rewrite Ek, desk_id. reflexivity. }
    destruct A as (E1 & Nm). destruct T as (E2 & Ln). rewrite desk_id in Ke.
    destruct (vote_made shellexpand eg Fc (ledger_after dbg bs) rng vk election vote election' vote' id xk k E1 E2 Nm Ln Fe Tk Ke) as (Cv & _).
    set (x := by_key vk _) in *. clearbody x. exists x. split; [exact Cv|].
    assert (D' : desk bs (b ++ [Some (into_env x)]) (cast ++ [(ed_public vk, vote')])).
    { apply (dk_vote _ _ _ _ _ _ bs b cast vk rng election election' vote vote' x D); try assumption; split; assumption. }
    split; [exact D'|].
    destruct (vote_step bs b cast vk rng election election' vote vote' x (desk_inv bs b cast D) (conj E1 Nm) (conj E2 Ln) Nv Cv) as (v & _ & _ & _ & Ca & _ & _ & Iff).
    destruct (step bs b (into_env x)) as [(_ & No)|(y & L' & -> & V & Cy)].
    - exfalso. destruct (proj2 Iff Ed) as (L' & V). exact (No L' V).
    - apply in_or_app. right. left. unfold carries in *. congruence.
  Qed.
  (** the end of voting is recorded when the command is given *)
  Theorem C80_end bs b cast k election election' : desk bs b cast ->
    at_id (recorded_by (bs ++ [b])) (slot0 e TEncryptionKey) (XEncryptionKey k) -> argument shellexpand id election election' ->
    exists x, cli_voting_end shellexpand sk election = Ok x /\ desk bs (b ++ [Some (into_env x)]) cast /\ ended el (recorded_by (bs ++ [b ++ [Some (into_env x)]])).
  Proof.
    intros D At (E1 & Nm). destruct (desk_inv bs b cast D) as (Nw & _). destruct (chain bs b Nw) as (Fh & Hh & Sd).
    destruct (C69_end_accepted shellexpand (la_sign _ _ _ L) dbg _ sk election election' id Fh E1 Nm) as (x & Cx & Iff & _).
    destruct (end_made shellexpand sk election election' id E1 Nm) as (Cx' & Tr). assert (x = by_key sk (XVotingEnd (made_end id (ed_public sk)))) by congruence.
    exists x. split; [exact Cx|]. split.
    - apply (dk_end _ _ _ _ _ _ bs b cast election election' x D); [split; assumption|exact Cx|exists k; exact At].
    - assert (Sl : slot0 e TVotingEnd = zero_slot id TVotingEnd) by (rewrite desk_id; reflexivity). unfold ended. rewrite Sl.
      destruct (step bs b (into_env x)) as [(-> & No)|(y & L' & -> & V & Cy)].
      + destruct (occupied_dec (recorded_by (bs ++ [b])) (zero_slot id TVotingEnd)) as [O|O]; [exact O|exfalso].
        rewrite (ledger_run bs b) in No. destruct (proj2 Iff) as (L' & V); [|exact (No L' V)]. split; [|exact O].
        exists el. split; [|symmetry; exact desk_authority]. rewrite <- desk_id. apply (election_at eg dbg el alone [u_of 4 0]).
        destruct At as (z & Iz & Ez & _). apply (honest_of eg dbg el alone [u_of 4 0] _ z Sd Iz). unfold inside. rewrite Ez. reflexivity.
      + exists y. split; [apply in_or_app; right; left; reflexivity|]. subst x. pose proof (env_carries _ Tr) as Ca.
        assert (y = norm_stx (by_key sk (XVotingEnd (made_end id (ed_public sk))))) as -> by (unfold carries in *; congruence). reflexivity.
  Qed.
  (** and sixteen blocks after the end of voting exactly what was typed is published *)
  Lemma end_key bs cast : desk bs [] cast -> ended el (recorded_by bs) -> exists k, at_id (recorded_by bs) (slot0 e TEncryptionKey) (XEncryptionKey k) /\ ek_key k = key.
  Proof.
    intros D (x & Ix & Ex). destruct (done bs cast D) as (Nw & _). pose proof L as [DH Op Sc Si En Sh Ve Re].
    destruct (net_chain S DH Op Sc eg dbg el alone _ SU Ve _ Nw) as (_ & _ & Sd & Hh & _).
    assert (Ins : inside el x) by (unfold inside; rewrite Ex; reflexivity). pose proof (honest_of eg dbg el alone [u_of 4 0] _ x Sd Ix Ins) as Ho.
    pose proof (hist_typed dbg _ x Hh Ix) as Ty. rewrite Ex in Ty. cbn [slot0 id_type] in Ty. unfold s_type in Ty.
    destruct (s_tx x) as [t|t|t|t|t|t|ve|t|t|t] eqn:Tx; try discriminate Ty.
    destruct (inside_end S DH Op Sc eg dbg el alone [u_of 4 0] SU _ x ve Ho Hh Ix Ins Tx) as (_ & _ & At & _). eexists. split; [exact At|reflexivity].
  Qed.
  Lemma ballots_typed bs cast c : Forall2 holds_text (votes_of el (recorded_by bs)) cast ->
    Forall2 (encrypted eg key) (ballots el (recorded_by bs) c) (if u_eqb (u_of 4 0) c then map ballot_for cast else []).
  Proof.
    unfold ballots. induction 1 as [|v p vs cast (_ & ev & Ev & Ec & En) F IH]; cbn [flat_map map]; [destruct (u_eqb _ c); constructor|].
    rewrite Ev. cbn [filter]. rewrite Ec. destruct (u_eqb (u_of 4 0) c); cbn [app]; [constructor; assumption|exact IH].
  Qed.
  Lemma entries_typed bs cast : Forall2 holds_text (votes_of el (recorded_by bs)) cast ->
    Forall2 (encrypted eg key) (SpecOutcome.entries el (recorded_by bs)) (map ballot_for cast).
  Proof.
    unfold SpecOutcome.entries. induction 1 as [|v p vs cast (_ & ev & Ev & Ec & En) F IH]; cbn [flat_map map]; [constructor|]. rewrite Ev. constructor; assumption.
  Qed.
  Lemma enough : sufficient el alone alone.
  Proof.
    split; [intros p I; exact I|repeat constructor; intros []| |].
    - rewrite started_is. vm_compute. discriminate.
    - intros _. eexists. split; [left; reflexivity|reflexivity].
  Qed.
  Lemma later bs new : ended el (recorded_by bs) -> ended el (recorded_by (bs ++ new)).
  Proof. intros (x & Ix & Ex). destruct (by_prefix dbg bs new) as (h' & ->). exists x. split; [apply in_or_app; left; exact Ix|exact Ex]. Qed.
  Theorem C80_published (r : nat -> Rnd) bs cast n : desk bs [] cast -> bs <> [] -> ended el (recorded_by bs) -> delivered dbg el sk bs ->
    let new := driven dbg r [sk] (fold_left (commit dbg) bs genesis) n in 16 <= n -> all_written new ->
    desk (bs ++ new) [] cast
    /\ Permutation (map dc_vote (decryptions_of el (recorded_by (bs ++ new)) (u_of 4 0))) (map ballot_for cast)
    /\ forall c, c <> u_of 4 0 -> decryptions_of el (recorded_by (bs ++ new)) c = [].
  Proof.
    intros D Nb Ed De new Le W. pose proof (desk_driven r cast n bs D Nb W) as D'. split; [exact D'|].
    destruct (settles r bs cast n D Nb De Le W) as (Nw & Se & De'). fold new in Nw, Se, De', D'. destruct (done _ cast D') as (_ & _ & F).
    destruct (end_key _ cast D' (later bs new Ed)) as (k & At & Kk).
    assert (P : forall c, Permutation (map dc_vote (decryptions_of el (recorded_by (bs ++ new)) c)) (if u_eqb (u_of 4 0) c then map ballot_for cast else [])).
    { intros c. apply (C78_published S eg dbg el alone [u_of 4 0] L SU (bs ++ new) alone k c); try assumption.
      - apply later, Ed.
      - apply enough.
      - intros p [<-|[]]. exact De'.
      - rewrite Kk. apply ballots_typed, F. }
    split.
    - specialize (P (u_of 4 0)). rewrite (proj2 (u_eqb_eq (u_of 4 0) (u_of 4 0)) eq_refl) in P. exact P.
    - intros c N. specialize (P c). destruct (u_eqb (u_of 4 0) c) eqn:E; [apply u_eqb_eq in E; congruence|].
      apply Permutation_sym, Permutation_nil in P. exact (map_eq_nil _ _ P).
  Qed.
  (** and the command that audits the election counts it *)
  Theorem C80_counted (r : nat -> Rnd) bs cast n (s : rstring) order : desk bs [] cast -> bs <> [] -> ended el (recorded_by bs) -> delivered dbg el sk bs ->
    let new := driven dbg r [sk] (fold_left (commit dbg) bs genesis) n in 16 <= n -> all_written new -> sv s = id_to_string e -> fair order ->
    exists m t, command_e2e dbg (ledger_after dbg (bs ++ new)) s = Ok m /\ e2e_tally order (ms_store m) e = Ok t /\ counts (map ballot_for cast) t.
  Proof.
    intros D Nb Ed De new Le W Hs Fo. pose proof (desk_driven r cast n bs D Nb W) as D'.
    destruct (settles r bs cast n D Nb De Le W) as (Nw & Se & De'). fold new in Nw, Se, De', D'. destruct (done _ cast D') as (_ & _ & F).
    destruct (end_key _ cast D' (later bs new Ed)) as (k & At & Kk).
    apply (C78_command S eg dbg el alone [u_of 4 0] L SU (bs ++ new) s alone k); try assumption.
    - apply later, Ed.
    - apply enough.
    - intros p [<-|[]]. exact De'.
    - rewrite Kk. apply entries_typed, F.
    - exact (desk_selects _ cast D').
    - apply Forall_forall. intros v Iv. apply in_map_iff in Iv as (p & <- & _). discriminate.
  Qed.

  (** a block after two empty ones: the node had nothing left to send *)
  Lemma quiet_delivered (r0 : nat -> Rnd) bs b cast : desk (bs ++ [[]; []]) b cast -> delivered dbg el sk (bs ++ [[]; []]) -> delivered dbg el sk ((bs ++ [[]; []]) ++ [b]).
  Proof.
    intros D De. destruct (desk_inv _ _ _ (dk_commit _ _ _ _ _ _ _ _ _ D)) as (Nw & _). pose proof L as [DH Op Sc Si En Sh Ve Re].
    destruct (net_chain S DH Op Sc eg dbg el alone [u_of 4 0] SU Ve _ Nw) as (_ & _ & _ & _ & _ & _ & Oc).
    assert (Nw0 : network (bs ++ [[]; []]) []) by (apply (net_prefix eg dbg el alone [u_of 4 0] (bs ++ [[]; []]) [b] []); exact Nw).
    destruct (net_chain S DH Op Sc eg dbg el alone [u_of 4 0] SU Ve _ Nw0) as (_ & _ & _ & _ & _ & _ & Oc0).
    intros bs1 c bs2 E N1. destruct bs2 as [|x bs2 _] using rev_ind.
    - apply app_inj_tail in E as [<- <-]. exists []. split; [exists r0; apply hook_none; intros o []|intros y []].
    - rewrite app_comm_cons, app_assoc in E. apply app_inj_tail in E as [E <-]. destruct (De bs1 c bs2 E N1) as (out & Sd & Dl). exists out. split; [exact Sd|].
      intros y Iy Ins. apply Oc. specialize (Dl y Iy Ins). apply Oc0 in Dl. destruct (by_prefix dbg (bs ++ [[]; []]) [b]) as (h2 & ->). apply occupied_mono, Dl.
  Qed.
End Props.

(** ** A concrete case: the election, two votes and the end of voting, typed in by hand *)
Section Case.
  Local Existing Instance ToyE.
  Local Existing Instance ToyET.
  Local Existing Instance Fq.
  Local Existing Instance Gq.
  Definition skD : @ed_secret ToyE := key_of x01.
  Definition elD : ElectionTx := norm_election (made idA (ed_public skD)).
  Definition firstD : list (option Env) := [Some (into_env (by_key skD (XElection (made idA (ed_public skD)))))].
  Definition castD : list (PublicKey * rstring) := [(ed_public (key_of x20 : @ed_secret ToyE), lit "yes"); (ed_public (key_of x21 : @ed_secret ToyE), lit "no")].
  Definition wb (bs : list (list (option Env))) : bool := forallb (forallb (fun o => match o with Some en => writtenb en | None => true end)) bs.
  Definition has_slot (t : TxType) (h : list STx) : bool := existsb (fun x => id_eqb (s_id x) (slot0 (el_id elD) t)) h.
  Definition voteD (bs : list (list (option Env))) (k : byte) (t : rstring) : res CliExit STx := cli_vote plain_arg e_encrypt (ledger_after true bs) 4 (key_of k : @ed_secret ToyE) argA t.
  Definition driveD (bs : list (list (option Env))) : list (list (option Env)) := driven true rnds [skD] (fold_left (commit true) bs genesis) 16.
  Definition endD : res CliExit STx := cli_voting_end plain_arg skD argA.
  Definition quiet (bs : list (list (option Env))) : bool := match rev bs with [] :: [] :: _ => true | _ => false end.
  Definition checksD (new : list (list (option Env))) (v1 v2 x : STx) : bool :=
    wb new && quiet (firstD :: new) && has_slot TEncryptionKey (recorded_by true (firstD :: new))
    && negb (has_slot TVotingEnd (recorded_by true ((firstD :: new) ++ [[Some (into_env v1); Some (into_env v2)]])))
    && wb (driveD ((firstD :: new) ++ [[Some (into_env v1); Some (into_env v2); Some (into_env x)]])).
  Definition caseD (new : list (list (option Env))) : bool :=
    match voteD (firstD :: new) x20 (lit "yes") with
    | Ok v1 => match voteD (firstD :: new) x21 (lit "no") with
               | Ok v2 => match endD with Ok x => checksD new v1 v2 x | _ => false end
               | _ => false
               end
    | _ => false
    end.
  Lemma caseD_ok : caseD (driveD [firstD]) = true.
  Proof. vm_compute. reflexivity. Qed.

  Lemma fitsD : fits_cipher e_encrypt.
  Proof.
    intros k r m H. unfold e_encrypt. cbn [fst any sv]. unfold q_encrypt, mk_ct. apply (sm_weak 2); [lia|]. apply sm_arr; [reflexivity|].
    constructor; [split; [reflexivity|cbn; lia]|]. constructor; [|constructor]. unfold cvs. apply sm_arr; [rewrite !map_length; exact H|].
    apply Forall_forall. intros v I. apply in_map_iff in I as (a & <- & _). split; [reflexivity|cbn; lia].
  Qed.
  Lemma startedD : started_with idA skD elD.
  Proof.
    destruct (election_made idA skD) as (A & T). exists (by_key skD (XElection (made idA (ed_public skD)))), (norm_stx (by_key skD (XElection (made idA (ed_public skD))))).
    split; [exact A|]. split; [exact (env_carries _ T)|reflexivity].
  Qed.

  Notation deskD := (desk plain_arg e_encrypt true idA skD elD).
  Lemma wb_ok bs : wb bs = true -> all_written bs.
  Proof.
    intros H b en Ib Ie. unfold wb in H. rewrite forallb_forall in H. specialize (H b Ib). rewrite forallb_forall in H. apply writtenb_ok, (H (Some en) Ie).
  Qed.
  Lemma quiet_ok bs : quiet bs = true -> exists b0, bs = b0 ++ [[]; []].
  Proof.
    unfold quiet. intros H. destruct (rev bs) as [|[|] [|[|] l]] eqn:E; try discriminate H. exists (rev l).
    rewrite <- (rev_involutive bs), E. cbn [rev]. rewrite <- app_assoc. reflexivity.
  Qed.
  Lemma has_slot_ok t h : has_slot t h = true <-> exists x, In x h /\ s_id x = slot0 (el_id elD) t.
  Proof.
    unfold has_slot. rewrite existsb_exists. split; intros (x & I & E); exists x; (split; [exact I|]); apply id_eqb_eq; exact E.
  Qed.
  Lemma argD : argument plain_arg idA argA argA.
  Proof. split; [reflexivity|]. exists []. vm_compute. reflexivity. Qed.

  Notation lawsD := (C70_laws elD).
  Lemma textD t : (N.of_nat (List.length (sv t)) < 2 ^ 63)%N -> text plain_arg t t.
  Proof. intros H. split; [reflexivity|exact H]. Qed.
  (** the hypotheses of [C80_key] hold together *)
  Lemma beginD : deskD [firstD] [] [] /\ at_id (recorded_by true [firstD]) (el_id elD) (XElection elD) /\ delivered true elD skD [firstD].
  Proof.
    destruct (C80_start toy_scheme plain_arg e_encrypt true idA skD elD startedD lawsD fitsD [] [] [] (dk_start _ _ _ _ _ _)) as (x & Cx & D & At).
    assert (x = by_key skD (XElection (made idA (ed_public skD)))) as -> by (pose proof (proj1 (election_made idA skD)); congruence).
    split; [exact (dk_commit _ _ _ _ _ _ [] firstD [] D)|]. split; [exact At|].
    intros bs1 b bs2 E N1. destruct bs1 as [|? [|]]; [destruct N1; reflexivity|discriminate E|discriminate E].
  Qed.
  Lemma voterD k (cast : list (PublicKey * rstring)) :
    forallb (fun p => negb (bytes_eqb (firstn 10 (arr_l (sv (fst p)))) (firstn 10 (arr_l (sv (ed_public (key_of k : @ed_secret ToyE))))))) cast = true ->
    (N.of_nat (List.length cast) < 65535)%N -> new_voter (key_of k : @ed_secret ToyE) cast.
  Proof.
    intros H Ln. split; [|exact Ln]. intros pk t I E. rewrite forallb_forall in H. specialize (H _ I). cbn [fst] in H. rewrite E in H.
    apply negb_true_iff in H. rewrite (proj2 (bytes_eqb_eq _ _) eq_refl) in H. discriminate H.
  Qed.
  Lemma earlier bs b en : ~ ended elD (recorded_by true (bs ++ [b ++ [Some en]])) -> ~ ended elD (recorded_by true (bs ++ [b])).
  Proof.
    intros H O. apply H. destruct (step true bs b en) as [(-> & _)|(x & L' & -> & _)]; [exact O|]. apply occupied_mono, O.
  Qed.
  Lemma driveD_is bs : driven true rnds [skD] (fold_left (commit true) bs genesis) 16 = driveD bs.
  Proof. reflexivity. Qed.
  Lemma caseD_wb new : caseD new = true -> wb new = true.
  Proof.
    unfold caseD. destruct (voteD _ _ _); try discriminate. destruct (voteD _ _ _); try discriminate. destruct endD; try discriminate.
    unfold checksD. intros Ca. repeat (apply andb_true_iff in Ca as [Ca ?]). exact Ca.
  Qed.
  Lemma sessionD new : driveD [firstD] = new -> caseD new = true -> exists bs k, deskD bs [] castD /\ bs <> []
    /\ at_id (recorded_by true bs) (slot0 (el_id elD) TEncryptionKey) (XEncryptionKey k) /\ ended elD (recorded_by true bs)
    /\ delivered true elD skD bs /\ all_written (driveD bs).
  Proof.
    intros En Ca. unfold caseD in Ca. destruct (voteD (firstD :: new) x20 (lit "yes")) as [v1| |] eqn:V1; try discriminate Ca.
    destruct (voteD (firstD :: new) x21 (lit "no")) as [v2| |] eqn:V2; try discriminate Ca. destruct endD as [xe| |] eqn:Ve; try discriminate Ca.
    unfold checksD in Ca. repeat (apply andb_true_iff in Ca as [Ca ?]). rename Ca into W1, H into W2, H0 into Ne, H1 into Hk, H2 into Qu.
    destruct beginD as (D0 & At0 & De0). change (firstD :: new) with ([firstD] ++ new) in *.
    destruct (C80_key toy_scheme plain_arg e_encrypt true idA skD elD startedD lawsD fitsD rnds [firstD] [] 16 D0) as (D1 & k & At & _); try assumption.
    1: discriminate. 1: lia. 1: rewrite (driveD_is [firstD]), En; apply wb_ok, W1.
    destruct (settles toy_scheme plain_arg e_encrypt true idA skD elD startedD lawsD fitsD rnds [firstD] [] 16 D0) as (_ & _ & De1); try assumption.
    1: discriminate. 1: lia. 1: rewrite (driveD_is [firstD]), En; apply wb_ok, W1.
    rewrite (driveD_is [firstD]), En in D1, At, De1. set (bs := [firstD] ++ new) in *.
    apply negb_true_iff in Ne. assert (Ne2 : ~ ended elD (recorded_by true (bs ++ [[Some (into_env v1); Some (into_env v2)]]))).
    { intros O. apply has_slot_ok in O. congruence. }
    pose proof (earlier bs [Some (into_env v1)] (into_env v2) Ne2) as Ne1. pose proof (earlier bs [] (into_env v1) Ne1) as Ne0.
    destruct (C80_vote toy_scheme plain_arg e_encrypt true idA skD elD startedD lawsD fitsD bs [] [] k (key_of x20) 4 argA argA (lit "yes") (lit "yes") D1 At Ne0 argD)
      as (x1 & C1 & D2 & _); [apply textD; reflexivity|apply voterD; reflexivity|].
    assert (x1 = v1) by (unfold voteD in V1; congruence). subst x1.
    destruct (C80_vote toy_scheme plain_arg e_encrypt true idA skD elD startedD lawsD fitsD bs [Some (into_env v1)] _ k (key_of x21) 4 argA argA (lit "no") (lit "no") D2 At Ne1 argD)
      as (x2 & C2 & D3 & _); [apply textD; reflexivity|apply voterD; vm_compute; reflexivity|].
    assert (x2 = v2) by (unfold voteD in V2; congruence). subst x2.
    assert (At2 : at_id (recorded_by true (bs ++ [[Some (into_env v1); Some (into_env v2)]])) (slot0 (el_id elD) TEncryptionKey) (XEncryptionKey k)).
    { destruct (by_prefix true bs [[Some (into_env v1); Some (into_env v2)]]) as (h2 & ->). destruct At as (z & Iz & Ez). exists z. split; [apply in_or_app; left; exact Iz|exact Ez]. }
    destruct (C80_end toy_scheme plain_arg e_encrypt true idA skD elD startedD lawsD fitsD bs _ _ k argA argA D3 At2 argD) as (x3 & C3 & D4 & Ed).
    assert (x3 = xe) by (unfold endD in Ve; congruence). subst x3. cbn [app] in D4, Ed.
    exists (bs ++ [[Some (into_env v1); Some (into_env v2); Some (into_env xe)]]), k. split; [exact (dk_commit _ _ _ _ _ _ _ _ _ D4)|].
    split; [destruct bs; discriminate|]. split; [|split; [exact Ed|split]].
    - destruct (by_prefix true bs [[Some (into_env v1); Some (into_env v2); Some (into_env xe)]]) as (h2 & ->). destruct At as (z & Iz & Ez).
      exists z. split; [apply in_or_app; left; exact Iz|exact Ez].
    - destruct (quiet_ok bs Qu) as (b0 & E0). rewrite E0 in *. exact (quiet_delivered toy_scheme plain_arg e_encrypt true idA skD elD startedD lawsD fitsD rnds _ _ _ D4 De1).
    - apply wb_ok. exact W2.
  Qed.
  Example C80_case : started_with idA skD elD /\ laws toy_scheme e_encrypt elD /\ fits_cipher e_encrypt
    /\ (exists bs, deskD bs [] [] /\ bs <> [] /\ at_id (recorded_by true bs) (el_id elD) (XElection elD) /\ delivered true elD skD bs /\ all_written (driveD bs))
    /\ exists bs k, deskD bs [] castD /\ bs <> [] /\ at_id (recorded_by true bs) (slot0 (el_id elD) TEncryptionKey) (XEncryptionKey k)
       /\ ended elD (recorded_by true bs) /\ delivered true elD skD bs /\ all_written (driveD bs).
  Proof.
    split; [exact startedD|]. split; [exact lawsD|]. split; [exact fitsD|]. split; [|exact (sessionD _ eq_refl caseD_ok)].
    exists [firstD]. destruct beginD as (A & B & D). split; [exact A|]. split; [discriminate|]. split; [exact B|]. split; [exact D|].
    exact (wb_ok _ (caseD_wb _ caseD_ok)).
  Qed.
  (** the two texts that were typed are published *)
  Example C80_outcome_case : exists bs, deskD bs [] castD /\ Permutation (map dc_vote (decryptions_of elD (recorded_by true bs) (u_of 4 0)))
    [[mk_selection true (u_of 4 0) (lit "yes")]; [mk_selection true (u_of 4 0) (lit "no")]].
  Proof.
    destruct C80_case as (_ & _ & _ & _ & bs & k & D & Nb & _ & Ed & De & W).
    destruct (C80_published toy_scheme plain_arg e_encrypt true idA skD elD startedD lawsD fitsD rnds bs castD 16 D Nb Ed De) as (D' & P & _); [lia|exact W|].
    eexists. split; [exact D'|exact P].
  Qed.
End Case.

Print Assumptions C80_start.
Print Assumptions C80_recorded.
Print Assumptions C80_key.
Print Assumptions C80_vote.
Print Assumptions C80_end.
Print Assumptions C80_published.
Print Assumptions C80_counted.
