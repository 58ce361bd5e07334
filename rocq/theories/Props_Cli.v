(** * Props_Cli: C67 (elections made with the command line client), C68 (its votes), C69 (its voting ends). *)
From Verif Require Import Base BaseFacts Hex HexFacts Utf8 Cbor CborFacts Ident BuildId IdentFacts Crypto Types Serde SerdeFacts
  SpecSerde Store SpecStore StoreFacts Prost Validate ValidateFacts SpecHist HistFacts SpecValid ValidFacts ValidFacts3 Exonum SpecLedger LedgerFacts
  Api Encrypt Cli SpecCli TransportFacts CliFacts Toy Scene.
From Coq Require Strings.String.
Import String.StringSyntax.
Open Scope list_scope.

Section Props.
  Context {C : Crypto}.
  Context (shellexpand : rstring -> option rstring).
  Context {R : Type} (eg_encrypt : EGPublicKey -> R -> bytes -> Ciphertext * R).

  (** ** C67 *)
  (** what [election generate] is meant to produce: an election with one trustee, who is the authority,
      that goes through the mixnet and asks one question *)
  Definition one_trustee (id : arr 15) (pk : PublicKey) (el : ElectionTx) : Prop :=
    el_id el = zero_slot id TElection /\ el_authority el = pk
    /\ (exists t, el_trustees el = [t] /\ tr_public_key t = pk /\ tr_index t = x01) /\ el_threshold el = x01
    /\ el_authenticators el = [] /\ el_mix_config el <> None
    /\ (exists b, el_ballots el = [b] /\ sv (bal_id b) = sv (lit "BALLOT1") /\ map uv (bal_contests b) = [0%N])
    /\ (exists c, el_contests el = [c] /\ uv (cont_index c) = 0%N).

  (** what the commands make, spelled out *)
  Definition made (id : arr 15) (pk : PublicKey) : ElectionTx :=
    mk_election (zero_slot id TElection) pk [mk_trustee pk x01 (u_of 8 1) x01] x01 [] x00
      (Some (mk_mixconfig (u_of 8 0) None)) [mk_ballot (lit "BALLOT1") [u_of 4 0] no_properties]
      [mk_contest (lit "TESTCONTEST") (u_of 4 0) Plurality (u_of 4 1) true [] no_properties] no_properties.
  Definition made_vote (e : arr 15) (pk : PublicKey) (ct : Ciphertext) : VoteTx :=
    mk_vote (vote_build_id (zero_slot e TElection) (sv pk)) (zero_slot e TElection) (lit "BALLOT1") [mk_encvote (u_of 4 0) [ct]] pk [].
  Definition made_end (e : arr 15) (pk : PublicKey) : VotingEndTx := mk_votingend (zero_slot e TVotingEnd) (zero_slot e TElection) pk.
  Definition by_key (sk : ed_secret) (t : Tx) : STx := mk_stx t (ed_sign sk (tx_bytes t)).
  Lemma election_made id sk : cli_election id sk = Ok (by_key sk (XElection (made id (ed_public sk))))
    /\ transportable (by_key sk (XElection (made id (ed_public sk)))).
  Proof.
    unfold cli_election. rewrite signed_ok by reflexivity. split; [reflexivity|]. set (x := by_key _ _).
    apply transport. unfold x. cbn [by_key made s_tx ser_tx]. unfold ser_election.
    apply sm_map; [reflexivity|].
    repeat (apply Forall_cons; [split; cbn [fst snd]; [apply sm_text; vm_compute; reflexivity|]|]); try apply Forall_nil;
        cbn [el_id el_authority el_trustees el_threshold el_authenticators el_auth_threshold el_mix_config el_ballots el_contests el_props election_new].
    - apply sm_id. - apply sm_pk.
    - apply sm_list; [reflexivity|]. intros a _. apply sm_trustee.
    - apply sm_u8. - split; vm_compute; [reflexivity|lia]. - apply sm_u8.
    - split; vm_compute; [reflexivity|lia]. - split; vm_compute; [reflexivity|lia].
    - split; vm_compute; [reflexivity|lia]. - split; vm_compute; [reflexivity|lia].
  Qed.
  Theorem C67_election_accepted : ed_sign_verifies ->
    forall dbg L id sk, (forall e, ~ In (id_to_string (zero_slot id TElection), e) L) ->
    exists x y el, cli_election id sk = Ok x
      /\ verify_and_store dbg L (into_env x) = Ok (post dbg L x)
      /\ fetch (post dbg L x) (zero_slot id TElection) = Ok y
      /\ s_tx y = XElection el /\ one_trustee id (ed_public sk) el.
  Proof.
    intros Law dbg L id sk Free. destruct (election_made id sk) as (Cx & T). rewrite Cx.
    set (x := by_key sk _) in *.
    exists x, (norm_stx x). eexists. split; [reflexivity|].
    assert (V : verify_and_store dbg L (into_env x) = Ok (bt_insert L (id_to_string (s_id x)) (into_env x))).
    { apply post_ok; [exact T|]. split; [|split; [|reflexivity]].
      - change (s_id x) with (zero_slot id TElection).
        destruct (bt_get L (id_to_string (zero_slot id TElection))) as [e|] eqn:G; [|reflexivity]. exfalso.
        apply (Free e). clear -G. induction L as [|[k v] L IH]; cbn [bt_get] in G; [discriminate|].
        destruct (bytes_eqb (id_to_string (zero_slot id TElection)) k) eqn:E.
        + apply bytes_eqb_eq in E. subst k. left. congruence.
        + right. apply IH, G.
      - apply validate_ok. split; [reflexivity|]. split.
        + apply verify_signature_ok. intros p P. cbn in P. injection P as <-. cbn [s_sig norm_stx x].
          assert (B : tx_bytes (s_tx (norm_stx x)) = tx_bytes (s_tx x)) by (unfold tx_bytes; cbn [norm_stx s_tx]; rewrite ser_norm; reflexivity).
          rewrite B. apply Law.
        + cbn [validate_tx norm_stx s_tx norm_tx x]. apply validate_election_iff. split; [reflexivity|]. split; vm_compute; discriminate. }
    unfold post, submit. rewrite V. split; [reflexivity|]. split; [apply (fetch_inserted L x T)|]. split; [reflexivity|].
    split; [reflexivity|]. split; [reflexivity|]. split; [eexists; split; [reflexivity|split; reflexivity]|]. split; [reflexivity|].
    split; [reflexivity|]. split; [discriminate|]. split; [eexists; split; [reflexivity|split; reflexivity]|].
    eexists; split; reflexivity.
  Qed.

  (** ** C68 *)
  Lemma varint_at_length k : forall n, List.length (enc_varint k n) <= S k.
  Proof.
    induction k as [|k IH]; intros n; cbn [enc_varint]; destruct (n <? 128)%N; cbn [List.length]; try lia.
    specialize (IH (n / 128)%N). lia.
  Qed.
  Lemma encoded_length w s t : (N.of_nat (List.length (sv t)) < 2^63)%N ->
    (N.of_nat (List.length (sel_encode (mk_selection w s t))) < 2^64)%N.
  Proof.
    destruct t as [t ht]. cbn [sv]. intros H. unfold sel_encode. cbn [sel_write_in sel_score sel_text sv].
    assert (A : forall n, List.length (varint n) <= 11) by (intros n; etransitivity; [apply varint_at_length|lia]).
    assert (B : forall a b, List.length (enc_key a b) <= 11) by (intros; apply A).
    rewrite !app_length.
    assert (X : List.length (if w then enc_key 1 0 ++ varint 1 else []) <= 22) by (destruct w; [rewrite app_length; specialize (A 1%N); specialize (B 1%N 0%N)|cbn]; lia).
    assert (Y : List.length (if (uv s =? 0)%N then [] else enc_key 2 0 ++ varint (uv s)) <= 22)
      by (destruct (uv s =? 0)%N; [cbn; lia|rewrite app_length; specialize (A (uv s)); specialize (B 2%N 0%N); lia]).
    change (2^63)%N with 9223372036854775808%N in H. change (2^64)%N with 18446744073709551616%N.
    clear ht. destruct t as [|b r].
    - cbn [List.length]. lia.
    - rewrite !app_length. specialize (A (N.of_nat (List.length (b :: r)))). specialize (B 3%N 2%N). lia.
  Qed.
  (** the ballot on which the client votes is offered, with the contest in which it votes *)
  Definition client_ballot (el : ElectionTx) : Prop :=
    exists b, first_with (fun b => sv (bal_id b) = sv (lit "BALLOT1")) (el_ballots el) b /\ exists c, In c (bal_contests b) /\ uv c = 0%N.

  Definition fits_cipher : Prop := forall k r m, (N.of_nat (List.length m) < 2^64)%N -> small 100 (sv (fst (eg_encrypt k r m))).
  Lemma vote_made : fits_cipher -> forall L rng sk election vote election' vote' e xk k,
    shellexpand election = Some election' -> shellexpand vote = Some vote' -> names (sv election') e -> (N.of_nat (List.length (sv vote')) < 2^63)%N ->
    fetch L (zero_slot e TEncryptionKey) = Ok xk -> s_tx xk = XEncryptionKey k -> ek_election k = zero_slot e TElection ->
    let x := by_key sk (XVote (made_vote e (ed_public sk) (fst (eg_encrypt (ek_key k) rng (sel_encode (mk_selection true (u_of 4 0) vote')))))) in
    cli_vote shellexpand eg_encrypt L rng sk election vote = Ok x /\ transportable x.
  Proof.
    intros Sm L rng sk election vote election' vote' e xk k E1 E2 Nm Ln Fe Ek2 Ek x. split.
    - unfold cli_vote, expand. rewrite E1, E2. cbn [ok_or bind]. rewrite (names_id _ _ TEncryptionKey Nm). cbn [or_panic bind].
      rewrite Fe. cbn [bind]. unfold into_typed. rewrite Ek2. cbn [as_enckey or_panic bind encrypt_vote]. unfold x.
      destruct (eg_encrypt (ek_key k) rng _) as [ct rng'] eqn:En. cbn [fst]. rewrite Ek, signed_ok by reflexivity. reflexivity.
    - apply transport. unfold x. cbn [by_key s_tx ser_tx]. apply (sm_weak (4 + 100)); [lia|]. apply sm_vote; cbn [made_vote vt_ballot vt_votes vt_authn List.length].
      + vm_compute. reflexivity.
      + reflexivity.
      + reflexivity.
      + intros a [].
      + intros ev [<-|[]]. split; [reflexivity|]. intros c [<-|[]]. apply Sm, encoded_length, Ln.
  Qed.
  (** when the transaction in the key slot of the named election is about that election: the vote is
      cast there, holds the given text encrypted under that key, and is accepted exactly when the
      election has the ballot, has not ended, and the slot and collision slot of the key are free *)
  Theorem C68_vote_partial : ed_sign_verifies -> fits_cipher ->
    forall dbg envs rng sk election vote election' vote' e k, Forall honest envs ->
    shellexpand election = Some election' -> shellexpand vote = Some vote' -> names (sv election') e ->
    (N.of_nat (List.length (sv vote')) < 2^63)%N ->
    at_id (accepted dbg [] envs) (zero_slot e TEncryptionKey) (XEncryptionKey k) -> ek_election k = zero_slot e TElection ->
    exists x v ev sel el, cli_vote shellexpand eg_encrypt (run dbg [] envs) rng sk election vote = Ok x
      /\ s_tx x = XVote v /\ vt_election v = zero_slot e TElection /\ vt_key v = ed_public sk
      /\ vt_votes v = [ev] /\ uv (ev_contest ev) = 0%N /\ ev_selections ev = [fst (eg_encrypt (ek_key k) rng (sel_encode sel))]
      /\ sel_text sel = vote' /\ sel_write_in sel = true
      /\ at_id (accepted dbg [] envs) (zero_slot e TElection) (XElection el)
      /\ ((exists L, verify_and_store dbg (run dbg [] envs) (into_env x) = Ok L) <->
          client_ballot el /\ ~ occupied (accepted dbg [] envs) (zero_slot e TVotingEnd)
          /\ forall y, In y (accepted dbg [] envs) -> id_election (s_id y) = e -> id_type (s_id y) = TVote ->
                arr_l (id_unique (s_id y)) <> firstn 16 (arr_l (sv (ed_public sk)))
                /\ arr_l (id_unique (s_id y)) <> firstn 10 (arr_l (sv (ed_public sk))) ++ repeat x00 6).
  Proof.
    intros Law Sm dbg envs rng sk election vote election' vote' e k He E1 E2 Nm Ln Hk Ek.
    destruct (honest_run0 dbg envs He) as (Hh & HL & HD & HW). set (L := run dbg [] envs) in *. set (l := accepted dbg [] envs) in *.
    assert (St : forall y, In y (decoded L) <-> In y l) by (intros y; rewrite HD; apply (hist_stored dbg l y Hh)).
    destruct Hk as (xk & Ik & Ek1 & Ek2).
    assert (Hel : exists el, at_id l (zero_slot e TElection) (XElection el)).
    { destruct (hist_accepted dbg l xk Hh Ik) as (p & q & E & Hp & _ & V).
      apply (validate_iff _ _ (stored_holds p) dbg) in V as (_ & _ & V). rewrite Ek2 in V. cbn [ok_tx] in V.
      destruct V as (el & pks & (xe & Ae & Be & De) & _). exists el, xe. rewrite E, <- Ek. split; [|auto].
      apply in_or_app. left. apply (hist_stored dbg p xe Hp), Ae. }
    destruct Hel as (el & Hel).
    set (ct := fst (eg_encrypt (ek_key k) rng (sel_encode (mk_selection true (u_of 4 0) vote')))).
    destruct (vote_made Sm L rng sk election vote election' vote' e xk k E1 E2 Nm Ln) as (CV & T); auto.
    1:{ apply (fetch_honest L (zero_slot e TEncryptionKey) xk HW HL (proj2 (St xk) Ik) Ek1). }
    fold ct in CV, T. set (x := by_key sk _) in *.
    assert (Tx : s_tx x = XVote (made_vote e (ed_public sk) ct)) by reflexivity.
    assert (Sx : s_sig x = ed_sign sk (tx_bytes (s_tx x))) by reflexivity.
    clearbody x. unfold made_vote in Tx. exists x. eexists. eexists. exists (mk_selection true (u_of 4 0) vote'), el. split; [exact CV|]. split; [exact Tx|].
    do 7 (split; [reflexivity|]). split; [exact Hel|].
    assert (Nx : norm_stx x = x) by (destruct x as [tx sx]; cbn [s_tx] in Tx; subst tx; reflexivity).
    assert (Ix : s_id x = mk_id e TVote (arr_slice (sv (ed_public sk)) 0 16 eq_refl)) by (unfold s_id; rewrite Tx; reflexivity).
    assert (Ux : arr_l (id_unique (s_id x)) = firstn 16 (arr_l (sv (ed_public sk)))) by (rewrite Ix; reflexivity).
    assert (Sig : forall p, tx_public (s_tx x) = Some p -> signed_by p x).
    { intros p P. rewrite Tx in P. cbn in P. injection P as <-. unfold signed_by. rewrite Sx. apply Law. }
    assert (Oc : forall i, occupied (decoded L) i <-> occupied l i).
    { intros i. split; intros (y & A & B); exists y; (split; [|exact B]); apply St, A. }
    split.
    - intros (L' & V). apply (post_ok dbg L x L' T) in V as (G & V & _). rewrite Nx in V.
      apply (free_slot L _ HW HL) in G. rewrite Oc in G.
      apply (validate_iff _ _ (honest_holds L HW HL) dbg) in V as (_ & _ & V). rewrite Tx in V. cbn [ok_tx] in V.
      destruct V as (el' & Hel' & _ & Cs & _ & Nd & _ & b & Fb & Cb). cbn [vt_election vt_key vt_votes vt_ballot] in *.
      assert (el' = el).
      { destruct Hel as (y & Y1 & Y2 & Y3), Hel' as (z & Z1 & Z2 & Z3). apply St in Z1.
        assert (y = z) by (apply (hist_unique dbg l); auto; congruence). congruence. }
      subst el'. split; [|split].
      + exists b. split.
        * destruct Fb as (pre & post & A & B & D). exists pre, post. split; [exact A|]. split; [rewrite B; reflexivity|].
          intros a Ia X. apply (D a Ia). apply sub_ext. exact X.
        * exists (u_of 4 0). split; [apply (Cb _ (or_introl eq_refl))|reflexivity].
      + intros X. apply Nd, Oc, X.
      + intros y Iy Ey Ty. split; intros U.
        * apply G. exists y. split; [exact Iy|]. destruct (s_id y) as [a t u] eqn:Iy'. rewrite Ix. cbn in *. subst. f_equal.
          apply arr_ext. rewrite U. reflexivity.
        * apply (Cs y); [apply St, Iy|]. split; [exact Ey|]. split; [exact Ty|exact U].
    - intros (Cb & Nd & Fr). exists (bt_insert L (id_to_string (s_id x)) (into_env x)). apply post_ok; [exact T|].
      split; [|split; [|reflexivity]].
      + apply (free_slot L _ HW HL). rewrite Oc. intros (y & Iy & Ey). apply (proj1 (Fr y Iy ltac:(rewrite Ey, Ix; reflexivity) ltac:(rewrite Ey, Ix; reflexivity))).
        rewrite Ey. exact Ux.
      + rewrite Nx. apply (validate_iff _ _ (honest_holds L HW HL) dbg).
        split; [rewrite Ix; unfold s_type; rewrite Tx; reflexivity|]. split; [exact Sig|]. rewrite Tx. cbn [ok_tx].
        exists el. cbn [vt_election vt_key vt_votes vt_ballot vt_authn vt_id].
        split; [destruct Hel as (y & Y1 & Y2); exists y; split; [apply St, Y1|exact Y2]|].
        split; [split; [reflexivity|split; reflexivity]|].
        split; [intros y Iy (Y1 & Y2 & Y3); apply St in Iy; apply (proj2 (Fr y Iy Y1 Y2)), Y3|].
        split; [exists xk; split; [apply St, Ik|exact Ek1]|]. split; [intros X; apply Nd, Oc, X|]. split; [intros an []|].
        destruct Cb as (b & Fb & c & Ic & Uc). exists b. split.
        * destruct Fb as (pre & post & A & B & D). exists pre, post. split; [exact A|]. split; [apply sub_ext; exact B|].
          intros a Ia X. apply (D a Ia). rewrite X. reflexivity.
        * intros ev [<-|[]]. cbn [ev_contest]. assert (c = u_of 4 0) by (apply u_ext; exact Uc). subst c. exact Ic.
  Qed.

  (** ** C69 *)
  Lemma end_made sk election election' e : shellexpand election = Some election' -> names (sv election') e ->
    cli_voting_end shellexpand sk election = Ok (by_key sk (XVotingEnd (made_end e (ed_public sk))))
    /\ transportable (by_key sk (XVotingEnd (made_end e (ed_public sk)))).
  Proof.
    intros E1 Nm. split; [|apply transport, sm_votingend].
    unfold cli_voting_end, expand. rewrite E1. cbn [ok_or bind]. rewrite (names_id _ _ TElection Nm). cbn [or_panic bind].
    rewrite signed_ok by reflexivity. reflexivity.
  Qed.
  Theorem C69_end_accepted : ed_sign_verifies ->
    forall dbg envs sk election election' e, Forall honest envs ->
    shellexpand election = Some election' -> names (sv election') e ->
    exists x, cli_voting_end shellexpand sk election = Ok x
      /\ ((exists L, verify_and_store dbg (run dbg [] envs) (into_env x) = Ok L) <->
          (exists el, at_id (accepted dbg [] envs) (zero_slot e TElection) (XElection el) /\ el_authority el = ed_public sk)
          /\ ~ occupied (accepted dbg [] envs) (zero_slot e TVotingEnd))
      /\ (forall L later y v, verify_and_store dbg (run dbg [] envs) (into_env x) = Ok L -> Forall honest later ->
          In y (accepted dbg L later) -> s_tx y = XVote v -> id_election (vt_election v) <> e).
  Proof.
    intros Law dbg envs sk election election' e He E1 Nm.
    destruct (honest_run0 dbg envs He) as (Hh & HL & HD & HW). set (L := run dbg [] envs) in *. set (l := accepted dbg [] envs) in *.
    assert (St : forall y, In y (decoded L) <-> In y l) by (intros y; rewrite HD; apply (hist_stored dbg l y Hh)).
    destruct (end_made sk election election' e E1 Nm) as (CV & T). set (x := by_key sk _) in *.
    assert (Tx : s_tx x = XVotingEnd (made_end e (ed_public sk))) by reflexivity.
    assert (Sx : s_sig x = ed_sign sk (tx_bytes (s_tx x))) by reflexivity.
    clearbody x. unfold made_end in Tx. assert (Ix : s_id x = zero_slot e TVotingEnd) by (unfold s_id; rewrite Tx; reflexivity).
    assert (Nx : norm_stx x = x) by (destruct x as [tx sx]; cbn [s_tx] in Tx; subst tx; reflexivity).
    assert (Oc : forall i, occupied (decoded L) i <-> occupied l i).
    { intros i. split; intros (y & A & B); exists y; (split; [|exact B]); apply St, A. }
    exists x. split; [exact CV|]. split; [split|].
    - intros (L' & V). apply (post_ok dbg L x L' T) in V as (G & V & _). rewrite Nx in V.
      apply (free_slot L _ HW HL) in G. rewrite Oc, Ix in G.
      apply (validate_iff _ _ (honest_holds L HW HL) dbg) in V as (_ & _ & V). rewrite Tx in V. cbn [ok_tx] in V.
      destruct V as (el & (y & A & B) & E). split; [|exact G]. exists el. split; [exists y; split; [apply St, A|exact B]|symmetry; exact E].
    - intros ((el & (y & A & B) & E) & G). exists (bt_insert L (id_to_string (s_id x)) (into_env x)). apply post_ok; [exact T|].
      split; [|split; [|reflexivity]].
      + apply (free_slot L _ HW HL). rewrite Oc, Ix. exact G.
      + rewrite Nx. apply (validate_iff _ _ (honest_holds L HW HL) dbg). split; [rewrite Ix; unfold s_type; rewrite Tx; reflexivity|]. split.
        * intros p P. rewrite Tx in P. cbn in P. injection P as <-. unfold signed_by. rewrite Sx. apply Law.
        * rewrite Tx. cbn [ok_tx]. exists el. split; [exists y; split; [apply St, A|exact B]|symmetry; exact E].
    - intros L' later y v V Hlater Iy Ty Ee.
      assert (R' : run dbg [] (envs ++ [into_env x]) = L').
      { unfold run. rewrite fold_left_app. cbn [fold_left]. change (fold_left (submit dbg) envs []) with L. unfold submit. rewrite V. reflexivity. }
      assert (Cx : carries (into_env x) x) by (rewrite <- Nx at 2; apply env_carries, T).
      destruct (honest_step dbg L (into_env x) x L' l HW HL (env_honest x T) Cx V HD Hh) as (Hh' & HL' & HD').
      assert (HW' : lwf L') by (rewrite <- R'; apply (reach_lwf dbg), run_reach; constructor).
      destruct (honest_run dbg later Hlater L' (l ++ [x]) HW' HL' HD' Hh') as (H2 & _ & _).
      apply in_split in Iy as (a & b & Eab). rewrite Eab in H2.
      assert (H3 : history dbg (((l ++ [x]) ++ a) ++ [y])).
      { replace ((l ++ [x]) ++ a ++ y :: b) with ((((l ++ [x]) ++ a) ++ [y]) ++ b) in H2 by (rewrite <- !app_assoc; reflexivity).
        eapply hist_prefix, H2. }
      apply hist_snoc_inv in H3 as (Hp & _ & W). apply (validate_iff _ _ (stored_holds _) dbg) in W as (_ & _ & W).
      rewrite Ty in W. cbn [ok_tx] in W. destruct W as (el & _ & _ & _ & _ & Nd & _). apply Nd. exists x. split.
      + apply (hist_stored dbg _ x Hp). apply in_or_app. left. apply in_or_app. right. left. reflexivity.
      + rewrite Ix. unfold slot0, zero_slot. rewrite Ee. reflexivity.
  Qed.
  (** an argument that is not the hexadecimal form of at least fifteen bytes stops the client *)
  Theorem C69_bad_argument : forall sk election election',
    shellexpand election = Some election' -> (forall e, ~ names (sv election') e) ->
    cli_voting_end shellexpand sk election = Panic PAssert.
  Proof.
    intros sk election election' E1 Nm. unfold cli_voting_end, expand. rewrite E1. cbn [ok_or bind].
    destruct (id_new_from_str (sv election') TElection None) as [i|] eqn:E; [exfalso|reflexivity].
    unfold id_new_from_str in E. destruct (hex_decode (sv election')) as [b|] eqn:D; [|discriminate].
    destruct (arr_of 15 (firstn 15 b)) as [a|] eqn:A; [|discriminate]. apply arr_of_some in A.
    apply (Nm a). exists (skipn 15 b). rewrite A, firstn_skipn. exact D.
  Qed.
End Props.

(** ** Examples and counterexamples *)
#[local] Existing Instance Toy.
Definition plain_arg (s : rstring) : option rstring := Some s.
(** a toy ElGamal whose ciphertexts show the number of the key *)
Definition key_no (k : EGPublicKey) : N := match sv k with CUint n => uv n | _ => 0%N end.
Definition toy_eg (k : EGPublicKey) (r : N) (m : bytes) : Ciphertext * N := (ct_of m (key_no k), N.succ r).
Definition got {E A} (d : A) (r : res E A) : A := match r with Ok a => a | _ => d end.
Definition idA : arr 15 := arr_rep x11 15.
Definition idB : arr 15 := arr_rep x22 15.
Definition argA : rstring := lit "111111111111111111111111111111".
Definition keyA : EGPublicKey := any (CUint (u_of 8 5)).
Definition keyB : EGPublicKey := any (CUint (u_of 8 666)).
Definition eA := zero_slot idA TElection.
Definition eB := zero_slot idB TElection.
Definition elA : STx := got (sgn x01 (XElection (election None))) (cli_election idA (key_of x01)).
Definition elB : STx := got elA (cli_election idB (key_of x02)).
Definition pub (b : byte) (slot named : Identifier) (k : EGPublicKey) : STx :=
  sgn b (XPublicKey (mk_pubkey (pubkey_build_id slot x01) named x01 (pk_of b) k (proof_of x01))).
Definition ekey (b : byte) (slot named : Identifier) (k : EGPublicKey) : STx :=
  sgn b (XEncryptionKey (mk_enckey (enckey_build_id slot) named (pk_of b) k)).

Lemma all_honest {C : Crypto} l : Forall transportable l -> Forall honest (map into_env l).
Proof. induction 1; constructor; [apply env_honest; assumption|assumption]. Qed.
Definition fits (x : STx) : bool := cwf (ser_stx x) && Nat.leb (cdepth (ser_stx x)) 127.
Lemma fits_transportable l : forallb fits l = true -> Forall transportable l.
Proof.
  intros H. apply Forall_forall. intros x I. rewrite forallb_forall in H. specialize (H x I). unfold fits in H.
  apply andb_true_iff in H as [A B]. apply Nat.leb_le in B. split; assumption.
Qed.
Definition shows (p : Tx -> bool) {E} (r : res E STx) : bool := match r with Ok y => p (s_tx y) | _ => false end.
Lemma shows_ex p E (r : res E STx) : shows p r = true -> exists y, r = Ok y /\ p (s_tx y) = true.
Proof. destruct r as [y| |]; cbn; intros H; try discriminate. eauto. Qed.

(** the election A of key 01, in order *)
Definition honestA : list STx := [elA; pub x01 eA eA keyA; ekey x01 eA eA keyA].
Definition has_authority (b : byte) (t : Tx) : bool :=
  match t with XElection el => arr_eqb (sv (el_authority el)) (key_of b) | _ => false end.
Example C67_example :
  shows (has_authority x01) (fetch (cli_post true [] [elA; elB]) eA) = true
  /\ shows (has_authority x02) (fetch (cli_post true [] [elA; elB]) eB) = true
  /\ forallb (fun p => negb (bytes_eqb (fst p) (id_to_string eB))) (cli_post true [] [elA]) = true
  /\ @ed_sign_verifies Toy.
Proof. repeat split; try (vm_compute; reflexivity). apply toy_ed_sign_verifies. Qed.

(** a vote made for election A is accepted there *)
Definition ledA := cli_post true [] honestA.
Definition voteA : res CliExit STx := cli_vote plain_arg toy_eg ledA 0%N (key_of x20) argA (lit "yes").
Definition vote_in (e : arr 15) (n : N) (t : Tx) : bool :=
  match t with
  | XVote v => arr_eqb (id_election (vt_election v)) e
      && match vt_votes v with
         | [ev] => match ev_selections ev with [c] => match sv c with CArr [_; CUint m] => N.eqb (uv m) n | _ => false end | _ => false end
         | _ => false
         end
  | _ => false
  end.
Definition accepts (L : Ledger) (r : res CliExit STx) : bool :=
  match r with Ok x => is_ok (verify_and_store true L (into_env x)) | _ => false end.
Example C68_partial_example :
  shows (vote_in idA 5) voteA = true /\ accepts ledA voteA = true
  /\ accepts (cli_post true ledA [got elA voteA]) voteA = false
  /\ forallb fits honestA = true /\ hex_decode (sv argA) = Some (arr_l idA ++ []).
Proof. repeat split; vm_compute; reflexivity. Qed.
Example C68_small_example : forall k r m, (N.of_nat (List.length m) < 2^64)%N -> small 100 (sv (fst (toy_eg k r m))).
Proof.
  intros k r m H. unfold toy_eg, ct_of. cbn [fst sv]. apply (sm_weak 1); [lia|]. apply sm_arr; [reflexivity|].
  constructor; [apply sm_bytes, H|]. constructor; [|constructor]. split; [reflexivity|cbn; lia].
Qed.

(** C68 refuted: key 02 runs election B and puts B's key in the key slot of election A.  A voter who
    asks for election A casts a vote in election B, encrypted under the key of B, and it is accepted. *)
Definition hijack : list STx := [elA; elB; pub x02 eB eB keyB; ekey x02 eA eB keyB; ekey x02 eB eB keyB].
Definition ledH := cli_post true [] hijack.
Definition voteH : res CliExit STx := cli_vote plain_arg toy_eg ledH 0%N (key_of x20) argA (lit "yes").
Lemma post_run dbg l : forall L, cli_post dbg L l = run dbg L (map into_env l).
Proof. induction l as [|x l IH]; intros L; [reflexivity|]. unfold cli_post, run in *. cbn [fold_left map]. apply IH. Qed.
Lemma hijack_fits : forallb fits hijack = true.
Proof. vm_compute. reflexivity. Qed.
Lemma hijack_checks :
  shows (vote_in idB 666) voteH && accepts ledH voteH && shows (has_authority x01) (fetch ledH eA) = true.
Proof. vm_compute. reflexivity. Qed.
Lemma hijack_run : run true [] (map into_env hijack) = ledH.
Proof. symmetry. apply post_run. Qed.
Theorem C68_vote_for_named_election_refuted :
  exists envs e election vote x v y el,
    Forall honest envs /\ names (sv election) e
    /\ fetch (run true [] envs) (zero_slot e TElection) = Ok y /\ s_tx y = XElection el /\ sv (el_authority el) = key_of x01
    /\ cli_vote plain_arg toy_eg (run true [] envs) 0%N (key_of x20) election vote = Ok x /\ s_tx x = XVote v
    /\ id_election (vt_election v) <> e
    /\ is_ok (verify_and_store true (run true [] envs) (into_env x)) = true.
Proof.
  generalize (all_honest _ (fits_transportable _ hijack_fits)), hijack_run, hijack_checks. unfold voteH.
  generalize ledH as L. generalize (map into_env hijack) as envs. intros envs L H R X.
  apply andb_true_iff in X as [X E]. apply andb_true_iff in X as [V A].
  apply shows_ex in V as (x & V1 & V2). apply shows_ex in E as (y & E1 & E2).
  destruct (s_tx x) as [| | | | |v| | | |] eqn:Tx; try discriminate V2. cbn [vote_in] in V2. apply andb_true_iff in V2 as [V2 _].
  destruct (s_tx y) as [el| | | | | | | | |] eqn:Ty; try discriminate E2. cbn [has_authority] in E2.
  exists envs, idA, argA, (lit "yes"), x, v, y, el. rewrite R. split; [exact H|].
  split; [exists []; vm_compute; reflexivity|]. split; [exact E1|]. split; [exact Ty|].
  split; [apply arr_eqb_eq, E2|]. split; [exact V1|]. split; [exact Tx|].
  split; [|rewrite V1 in A; exact A].
  apply arr_eqb_eq in V2. rewrite V2. intros X. apply (f_equal arr_l) in X. vm_compute in X. discriminate X.
Qed.

Example C69_example :
  (let r := cli_voting_end plain_arg (key_of x01) argA in
   accepts ledA r = true /\ accepts (cli_post true ledA [got elA r]) voteA = false)
  /\ accepts ledA (cli_voting_end plain_arg (key_of x02) argA) = false.
Proof. cbn zeta. repeat split; vm_compute; reflexivity. Qed.
Example C69_bad_argument_example : forall e, ~ names (sv (lit "1111")) e.
Proof.
  intros e (b & H). assert (D : hex_decode (sv (lit "1111")) = Some [x11; x11]) by (vm_compute; reflexivity).
  rewrite D in H. assert (Y : [x11; x11] = arr_l e ++ b) by congruence. apply (f_equal (@List.length byte)) in Y.
  rewrite app_length, arr_len in Y. cbn [List.length Nat.add] in Y. lia.
Qed.

Print Assumptions C67_election_accepted.
Print Assumptions C68_vote_partial.
Print Assumptions C68_vote_for_named_election_refuted.
Print Assumptions C69_end_accepted.
Print Assumptions C69_bad_argument.
