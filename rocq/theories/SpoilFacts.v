(** * SpoilFacts: no check and no follow-up reads what an election says about its contests. *)
From Verif Require Import Base BaseFacts Utf8 Cbor Ident BuildId IdentFacts Crypto Types Serde SpecSerde SerdeFacts Store Prost Validate
  Exonum Audit Trustee Tasks SpecAgree AgreeFacts SpecSpoiled.
Open Scope list_scope.
Set Implicit Arguments.

Section Facts.
  Context {C : Crypto}.

  Definition other {A} (proj : Tx -> option A) : Prop := forall e, proj (XElection e) = None.
  Lemma like_eq a b : el_like a b -> exists cs ps, (el_contests a = [] <-> cs = [])
    /\ b = mk_election (el_id a) (el_authority a) (el_trustees a) (el_threshold a) (el_authenticators a) (el_auth_threshold a)
             (el_mix_config a) (el_ballots a) cs ps.
  Proof.
    intros (I & A & T & H & N & M & X & B & Cs). exists (el_contests b), (el_props b). split; [exact Cs|].
    rewrite I, A, T, H, N, M, X, B. destruct b. reflexivity.
  Qed.
  Lemma like_id x y : stx_like x y -> s_id x = s_id y.
  Proof. intros [->|(a & b & X & Y & L)]; [reflexivity|]. unfold s_id. rewrite X, Y. exact (proj1 L). Qed.
  Lemma like_proj {A} (proj : Tx -> option A) x y : other proj -> stx_like x y -> proj (s_tx x) = proj (s_tx y).
  Proof. intros O [->|(a & b & X & Y & L)]; [reflexivity|]. rewrite X, Y, !O. reflexivity. Qed.

  Lemma get_multiple_like s s' e ty : store_like s s' -> res_agree (Forall2 stx_like) (get_multiple s e ty) (get_multiple s' e ty).
  Proof.
    intros [_ R]. unfold get_multiple. destruct (id_start e ty None) as [a|x|p]; cbn [bind]; [|constructor..].
    destruct (id_end e ty None) as [b|x|p]; cbn [bind]; [apply R|constructor..].
  Qed.
  Lemma get_typed_like {A} (proj : Tx -> option A) ty s s' i : other proj -> store_like s s' ->
    get_typed proj ty s i = get_typed proj ty s' i.
  Proof.
    intros B [G _]. unfold get_typed. eapply bind_agree; [apply lift_agree, G|].
    intros a b [x y [->|(p & q & X & Y & _)]|]; [reflexivity| |reflexivity]. rewrite X, Y, !B. reflexivity.
  Qed.
  Lemma like_refl e : el_like e e.
  Proof. repeat split; auto. Qed.
  Lemma get_election_like s s' i : store_like s s' ->
    res_agree (fun p q => el_like (fst p) (fst q)) (get_election s i) (get_election s' i).
  Proof.
    intros [G _]. unfold get_election, get_typed. specialize (G i). destruct G as [a b O|e|p]; cbn [lift bind];
      [|destruct e|constructor].
    destruct O as [x y [->|(p & q & X & Y & L)]|]; [|rewrite X, Y; constructor; exact L|constructor].
    destruct (s_tx y); cbn [as_election]; constructor. apply like_refl.
  Qed.
  Lemma election_of_like s s' i : store_like s s' -> res_agree el_like (election_of s i) (election_of s' i).
  Proof. intros H. unfold election_of, q. destruct (get_election_like i H); cbn [map_err bind]; constructor; auto. Qed.
  Lemma into_like {E A} (proj : Tx -> option A) l l' : other proj -> Forall2 stx_like l l' ->
    map_res (@into_typed C E A proj) l = map_res (into_typed proj) l'.
  Proof.
    intros B F. eapply forall2_map_res; [|exact F]. intros x y Q. unfold into_typed. rewrite (like_proj B Q). reflexivity.
  Qed.
  Ltac other := intros ?; reflexivity.
  Lemma o_vote : other as_vote. Proof. other. Qed.
  Lemma o_mix : other as_mix. Proof. other. Qed.
  Lemma o_pubkey : other as_pubkey. Proof. other. Qed.
  Lemma o_enckey : other as_enckey. Proof. other. Qed.
  Lemma o_partial : other as_partial. Proof. other. Qed.
  Lemma o_share : other as_share. Proof. other. Qed.
  Lemma o_commitment : other as_commitment. Proof. other. Qed.

  Section TwoStores.
    Context (s s' : Store) (H : store_like s s').

    Lemma with_like {D} i (f g : ElectionTx -> res VError D) :
      (forall a b, el_like a b -> f a = g b) -> bind (election_of s i) f = bind (election_of s' i) g.
    Proof. intros F. eapply bind_agree; [exact (election_of_like i H)|exact F]. Qed.
    Lemma row_like up idx c mc : encrypted_vote s up idx c mc = encrypted_vote s' up idx c mc.
    Proof.
      unfold encrypted_vote, get_vote, get_mix.
      rewrite (get_typed_like TVote up o_vote H), (get_typed_like TMix up o_mix H). reflexivity.
    Qed.
    Lemma mix_input_like dbg t : mix_input dbg s t = mix_input dbg s' t.
    Proof.
      unfold mix_input. destruct (mx_prev t) as [p|].
      - unfold mix_input_prev. eapply bind_agree; [exact (lift_agree (proj1 H p))|].
        intros a b [x y Q|]; [|reflexivity]. cbn [ok_or bind]. unfold into_typed. rewrite (like_proj o_mix Q). reflexivity.
      - unfold mix_input_first.
        do 3 (destruct (@fail_if VError _ _) as [[]|e|p]; [|reflexivity..]; cbn [bind]).
        destruct (id_start _ _ _) as [a|e|p]; cbn [bind]; [|reflexivity..].
        destruct (id_end _ _ _) as [b|e|p]; cbn [bind]; [|reflexivity..].
        eapply bind_agree; [exact (lift_agree (proj2 H a b))|].
        intros l l' F. rewrite (forall2_len F).
        assert (M : map s_id l = map s_id l') by (eapply forall2_map; [|exact F]; exact like_id).
        rewrite M, (into_like o_vote F). reflexivity.
    Qed.
    Ltac step := destruct (@fail_if VError _ _) as [[]|e|p]; [|reflexivity..]; cbn [bind].
    Ltac there := eapply bind_agree; [exact (lift_agree (proj1 H _))|];
      let o := fresh in let o' := fresh in intros o o' [? ? ?|]; [|reflexivity].
    Ltac same L := let cs := fresh in let ps := fresh in destruct (like_eq L) as (cs & ps & _ & ->); clear L.
    Lemma validate_tx_like dbg t : validate_tx dbg s t = validate_tx dbg s' t.
    Proof.
      destruct t as [t|t|t|t|t|t|t|t|t|t]; cbn [validate_tx]; [reflexivity|..].
      - apply with_like. intros a b A. same A. reflexivity.
      - apply with_like. intros a b A. same A. reflexivity.
      - apply with_like. intros a b A. same A. reflexivity.
      - apply with_like. intros a b A. same A. cbn [el_authority]. step.
        eapply bind_agree; [exact (lift_agree (get_multiple_like _ _ H))|].
        intros l l' F. rewrite (into_like o_pubkey F). reflexivity.
      - unfold validate_vote. step. apply with_like. intros a b A. same A.
        destruct (id_start _ _ _) as [i|e|p]; cbn [bind]; [|reflexivity..].
        eapply bind_agree; [exact (lift_agree (proj2 H _ _))|]. intros l l' F. rewrite (forall2_len F). step.
        there. cbn [bind fail_if]. eapply bind_agree; [exact (lift_agree (proj1 H _))|]. intros o o' [? ? ?|]; reflexivity.
      - apply with_like. intros a b A. same A. reflexivity.
      - unfold validate_mix. step. apply with_like. intros a b A. same A. rewrite mix_input_like. cbn [el_mix_config].
        step. unfold trustee_exists. cbn [el_trustees]. step. destruct (u8_sub _ _ _) as [n|e|p]; [|reflexivity..]. cbn [bind]. step. step.
        destruct (mix_input _ _ _) as [ins|e|p]; [|reflexivity..]. cbn [bind].
        eapply bind_agree; [exact (lift_agree (proj1 H _))|]. intros o o' [x y Q|]; [|reflexivity].
        cbn [ok_or bind]. unfold into_typed. rewrite (like_proj o_enckey Q). reflexivity.
      - unfold validate_partial. apply with_like. intros a b A. same A. unfold get_full_trustees. cbn [el_trustees el_threshold el_mix_config].
        destruct (ok_or _ _) as [tr|e|p]; [|reflexivity..]. cbn [bind]. step.
        there. cbn [bind fail_if]. rewrite row_like. unfold get_keygen_public_key. rewrite (get_typed_like TKeyGenPublicKey _ o_pubkey H). reflexivity.
      - unfold validate_decryption. step. apply with_like. intros a b A. same A. unfold get_trustee. cbn [el_trustees el_threshold el_mix_config].
        rewrite row_like. destruct (encrypted_vote _ _ _ _ _) as [cts|e|p]; [|reflexivity..]. cbn [bind].
        eapply bind_agree; [exact (lift_agree (get_multiple_like _ _ H))|].
        intros l l' G. rewrite (into_like o_pubkey G).
        destruct (map_res _ l') as [pks|e|p]; [|reflexivity..]. cbn [bind].
        match goal with |- bind ?m _ = bind ?n _ => assert (M : m = n); [|rewrite M; reflexivity] end.
        eapply (forall2_map_res (R := eq)); [|clear; induction (dc_trustees t); constructor; auto].
        intros i ? <-. destruct (find _ _) as [x|]; [|reflexivity]. cbn [ok_or bind].
        unfold get_partial_decryption. rewrite (get_typed_like TPartialDecryption _ o_partial H). reflexivity.
    Qed.
    Lemma validate_like dbg x : validate dbg s x = validate dbg s' x.
    Proof. unfold validate. rewrite validate_tx_like. reflexivity. Qed.
  End TwoStores.

  (** ** Stores built from such transactions *)
  Definition entry_like (p r : bytes * STx) : Prop := fst p = fst r /\ stx_like (snd p) (snd r).
  Lemma insert_like m m' k x y : Forall2 entry_like m m' -> stx_like x y -> Forall2 entry_like (bt_insert m k x) (bt_insert m' k y).
  Proof.
    intros F X. induction F as [|[a u] [b v] m m' [K V] F IH]; cbn [bt_insert]; [constructor; [split; [reflexivity|exact X]|constructor]|].
    cbn [fst snd] in K, V. subst b. destruct (lex k a); repeat (constructor; auto).
  Qed.
  Lemma set_like m m' x y : Forall2 entry_like m m' -> stx_like x y -> Forall2 entry_like (ms_set m x) (ms_set m' y).
  Proof. intros F X. unfold ms_set. rewrite (like_id X). apply insert_like; assumption. Qed.
  Lemma from_like l l' : Forall2 stx_like l l' -> Forall2 entry_like (ms_from l) (ms_from l').
  Proof.
    unfold ms_from. intros F. assert (N : Forall2 entry_like ms_empty ms_empty) by constructor.
    revert N. generalize ms_empty at 1 3. generalize ms_empty. induction F as [|x y l l' X F IH]; intros m m' M; cbn [fold_left]; [exact M|].
    apply IH, set_like; assumption.
  Qed.
  Lemma store_of_like m m' : Forall2 entry_like m m' -> store_like (ms_store m) (ms_store m').
  Proof.
    intros F. split.
    - intros i. cbn [ms_store st_get]. constructor. unfold ms_get. induction F as [|[a u] [b v] m m' [K V] F IH]; cbn [bt_get]; [constructor|].
      cbn [fst snd] in K, V. subst b. destruct (bytes_eqb _ a); [constructor; exact V|exact IH].
    - intros a b. cbn [ms_store st_range]. unfold ms_range, bt_range. destruct (bytes_leb _ _); cbn [bind]; [constructor|constructor].
      induction F as [|[k u] [k' v] m m' [K V] F IH]; cbn [filter]; [constructor|].
      cbn [fst snd] in *. subst k'. destruct (_ && _); cbn [map snd]; [constructor; assumption|exact IH].
  Qed.
End Facts.

Section Follow.
  Context {C : Crypto} {TC : TCrypto}.
  Context (dbg : bool) (sk : ed_secret) (r : Rnd) (s s' : Store) (H : store_like s s').

  Lemma t_election_like i : res_agree el_like (t_election s i) (t_election s' i).
  Proof. unfold t_election. destruct (get_election_like i H); cbn [map_err bind]; constructor; auto. Qed.
  Lemma t_multiple_like {A} (proj : Tx -> option A) e ty : other proj -> t_multiple proj s e ty = t_multiple proj s' e ty.
  Proof.
    intros B. unfold t_multiple. eapply bind_agree; [exact (lift_agree (get_multiple_like e ty H))|].
    intros l l' F. exact (into_like B F).
  Qed.
  Lemma t_enckey_like e : t_enckey s e = t_enckey s' e.
  Proof.
    unfold t_enckey. eapply bind_agree; [exact (lift_agree (proj1 H _))|]. intros o o' [x y Q|]; [|reflexivity].
    cbn [or_panic bind]. unfold into_typed. rewrite (like_proj o_enckey Q). reflexivity.
  Qed.
  Lemma partials_like a b t c c' m : el_id a = el_id b -> (m <> None -> c = c') -> produce_partials sk r s a t c m = produce_partials sk r s' b t c' m.
  Proof.
    intros A Ec. unfold produce_partials. rewrite A, (t_multiple_like _ _ o_share), (t_multiple_like _ _ o_commitment).
    rewrite (t_multiple_like _ _ o_vote). destruct m; [rewrite Ec by discriminate|]; reflexivity.
  Qed.
  Lemma follow_like x y : stx_like x y -> generate_transactions dbg sk r s x = generate_transactions dbg sk r s' y.
  Proof.
    intros Q. unfold generate_transactions. destruct Q as [->|(a & b & -> & -> & L)].
    2:{ destruct (like_eq L) as (cs & ps & _ & ->). reflexivity. }
    destruct (s_tx y) as [t|t|t|t|t|t|t|t|t|t]; try reflexivity.
    - eapply bind_agree; [apply t_election_like|]. intros a b A. destruct (like_eq A) as (cs & ps & _ & ->).
      rewrite (t_multiple_like _ _ o_commitment). reflexivity.
    - eapply bind_agree; [apply t_election_like|]. intros a b A. destruct (like_eq A) as (cs & ps & _ & ->).
      rewrite (t_multiple_like _ _ o_commitment), (t_multiple_like _ _ o_share). reflexivity.
    - eapply bind_agree; [apply t_election_like|]. intros a b A. destruct (like_eq A) as (cs & ps & _ & ->).
      rewrite (t_multiple_like _ _ o_pubkey). reflexivity.
    - eapply bind_agree; [apply t_election_like|]. intros a b A. destruct (like_eq A) as (cs & ps & Ec & ->).
      change (trustee_from_election (mk_election _ _ _ _ _ _ _ _ cs ps) (node_key sk)) with (trustee_from_election a (node_key sk)).
      destruct (trustee_from_election a _) as [tr|]; [|reflexivity]. cbn [el_mix_config el_id el_contests].
      destruct (el_mix_config a).
      + destruct (Byte.eqb _ _); [|reflexivity]. rewrite t_enckey_like, (t_multiple_like _ _ o_vote).
        destruct (t_enckey _ _); cbn [bind]; [|reflexivity..]. destruct (t_multiple _ _ _ _); cbn [bind]; [|reflexivity..].
        apply first_mixes_agree. reflexivity.
      + destruct (el_contests a) as [|c l], cs as [|c' l']; [reflexivity|destruct Ec as [Ec _]; discriminate (Ec eq_refl)|destruct Ec as [_ Ec]; discriminate (Ec eq_refl)|].
        apply partials_like; [reflexivity|congruence].
    - eapply bind_agree; [apply t_election_like|]. intros a b A. destruct (like_eq A) as (cs & ps & Ec & ->).
      change (trustee_from_election (mk_election _ _ _ _ _ _ _ _ cs ps) (node_key sk)) with (trustee_from_election a (node_key sk)).
      destruct (trustee_from_election a _) as [tr|]; [|reflexivity]. cbn [el_mix_config el_threshold].
      destruct (el_mix_config a); [|reflexivity]. destruct (u8_add _ _ _); cbn [bind]; [|reflexivity..].
      destruct (Byte.eqb _ _); [apply partials_like; reflexivity|]. destruct (u8_add _ _ _); cbn [bind]; [|reflexivity..].
      destruct (Byte.eqb _ _); [|reflexivity]. cbn [el_id]. rewrite t_enckey_like. reflexivity.
    - eapply bind_agree; [apply t_election_like|]. intros a b A. destruct (like_eq A) as (cs & ps & Ec & ->).
      change (trustee_from_election (mk_election _ _ _ _ _ _ _ _ cs ps) (node_key sk)) with (trustee_from_election a (node_key sk)).
      destruct (trustee_from_election a _) as [tr|]; [|reflexivity]. cbn [el_id el_threshold].
      eapply bind_agree; [exact (lift_agree (proj2 H _ _))|]. intros l l' F. rewrite (forall2_len F), (into_like o_partial F).
      unfold t_row, get_vote, get_mix. rewrite (get_typed_like TVote _ o_vote H), (get_typed_like TMix _ o_mix H).
      rewrite (t_multiple_like _ _ o_pubkey). reflexivity.
  Qed.
End Follow.
