(** * PanicFacts: validation against a history panics only for the causes listed in SpecDecrypt.v. *)
From Verif Require Import Base BaseFacts Utf8 Cbor CborFacts Ident BuildId IdentFacts Crypto Types Serde SerdeFacts Store SpecStore StoreFacts
  Prost Validate ValidateFacts SpecValid ValidFacts ValidFacts2 ValidFacts3 SpecHist HistFacts SpecMix MixFacts
  SpecDecrypt DecryptFacts.
From Coq Require Import ZifyBool ZifyNat ZifyN.
Open Scope list_scope.

(** [m] panics only if [Q] *)
Definition calm (Q : Prop) {E A} (m : res E A) : Prop := forall p, m = Panic p -> Q.
Section Calm.
  Context {Q : Prop}.
  Lemma calm_ok {E A} (a : A) : calm Q (@Ok E A a).
  Proof. intros p H. discriminate. Qed.
  Lemma calm_err {E A} (e : E) : calm Q (@Err E A e).
  Proof. intros p H. discriminate. Qed.
  Lemma calm_fail {E} c (e : E) : calm Q (fail_if c e).
  Proof. intros p. destruct c; discriminate. Qed.
  Lemma calm_ok_or {E A} (o : option A) (e : E) : calm Q (ok_or o e).
  Proof. intros p. destruct o; discriminate. Qed.
  Lemma calm_bind {E A B} (m : res E A) (f : A -> res E B) :
    calm Q m -> (forall a, m = Ok a -> calm Q (f a)) -> calm Q (bind m f).
  Proof.
    intros Hm Hf p. destruct m as [a|e|p']; cbn [bind]; [apply Hf; reflexivity|discriminate|].
    intros _. exact (Hm p' eq_refl).
  Qed.
  Lemma calm_map_err {E F A} (f : E -> F) (m : res E A) : calm Q m -> calm Q (map_err f m).
  Proof. intros H p. destruct m as [a|e|p']; cbn; try discriminate. intros _. exact (H p' eq_refl). Qed.
  Lemma calm_for {E A} (l : list A) (f : A -> res E unit) :
    (forall x, In x l -> calm Q (f x)) -> calm Q (for_each l f).
  Proof.
    induction l as [|x l IH]; intros H; cbn [for_each]; [apply calm_ok|].
    apply calm_bind; [apply H; left; reflexivity|]. intros _ _. apply IH. intros y Hy. apply H. right. exact Hy.
  Qed.
  Lemma calm_map_res {E A B} (f : A -> res E B) l : (forall x, In x l -> calm Q (f x)) -> calm Q (map_res f l).
  Proof.
    induction l as [|x l IH]; intros H; cbn [map_res]; [apply calm_ok|].
    apply calm_bind; [apply H; left; reflexivity|]. intros y _.
    apply calm_bind; [apply IH; intros z Hz; apply H; right; exact Hz|]. intros ys _. apply calm_ok.
  Qed.
  Lemma calm_or_panic {E A} (o : option A) p : (o = None -> Q) -> calm Q (@or_panic E A o p).
  Proof. destruct o; [intros _ q; discriminate|intros H q _; exact (H eq_refl)]. Qed.
End Calm.

Ltac calm1 :=
  first [ apply calm_ok | apply calm_err | apply calm_fail | apply calm_ok_or
        | apply calm_map_err | (apply calm_bind; [|intros]) ].

Section Facts.
  Context {C : Crypto}.
  Section Holds.
    Context {Q : Prop}.
    Variables (s : Store) (L : list STx).
    Hypothesis H : holds s L.

    Lemma calm_get {E} i : calm Q (@lift E _ (st_get s i)).
    Proof. rewrite (h_get _ _ H). intros p X. discriminate X. Qed.
    Lemma calm_typed {A} (proj : Tx -> option A) t i : calm Q (get_typed proj t s i).
    Proof.
      unfold get_typed. apply calm_bind; [apply calm_get|]. intros o _. destruct o as [x|]; [|apply calm_err].
      destruct (proj (s_tx x)); [apply calm_ok|apply calm_err].
    Qed.
    Lemma calm_q {A} (m : res NotFound A) : calm Q m -> calm Q (q m).
    Proof. apply calm_map_err. Qed.
    Lemma calm_election i : calm Q (election_of s i).
    Proof. unfold election_of. calm1; [apply calm_q, calm_typed|calm1]. Qed.
    Lemma calm_multiple {E} e t : calm Q (@lift E _ (get_multiple s e t)).
    Proof. rewrite (holds_multiple _ _ _ _ H). intros p X. discriminate X. Qed.
    Lemma calm_encrypted_vote up idx c mc : calm Q (encrypted_vote s up idx c mc).
    Proof.
      unfold encrypted_vote. destruct (id_type up); try apply calm_err.
      - calm1; [calm1|]. calm1; [calm1|]. calm1; [apply calm_q, calm_typed|].
        destruct (find _ _); calm1.
      - calm1; [apply calm_q, calm_typed|]. calm1; [calm1|]. calm1; [calm1|]. calm1; [calm1|].
        apply calm_or_panic. intros Hn. exfalso. revert Hn. apply nth_error_Some.
        match goal with X : fail_if (uv _ <=? _)%N _ = Ok _ |- _ => apply fail_if_ok in X; rename X into B end.
        apply N.leb_gt in B. unfold u_of in B. cbn [uv] in B.
        assert (N.of_nat (length (mx_out (fst a))) mod pow256 2 <= N.of_nat (length (mx_out (fst a))))%N
          by (apply N.mod_le; discriminate). lia.
    Qed.
  End Holds.

  (** ** histories *)
  Variable dbg : bool.
  Variable l : list STx.
  Hypothesis Hl : history dbg l.
  Let s := ms_store (ms_from l).
  Let L := stored l.
  Let H : holds s L := stored_holds l.

  Lemma typed_in x t : In x L -> id_type (s_id x) = t -> tx_type (s_tx x) = t.
  Proof.
    intros Hx <-. symmetry. apply (hist_typed dbg l x Hl). apply (hist_stored dbg l x Hl). exact Hx.
  Qed.
  Lemma calm_into {Q : Prop} {E A} (proj : Tx -> option A) t x :
    (forall y, tx_type y = t -> proj y <> None) -> In x L -> id_type (s_id x) = t -> calm Q (@into_typed _ E A proj x).
  Proof. intros P Hx T. apply calm_or_panic. intros Hn. exfalso. revert Hn. apply P. apply typed_in; assumption. Qed.
  Lemma calm_into_all {Q : Prop} {E A} (proj : Tx -> option A) t e r :
    (forall y, tx_type y = t -> proj y <> None) -> r = listed L e t ->
    calm Q (@map_res E _ _ (into_typed proj) r).
  Proof.
    intros P ->. apply calm_map_res. intros x Hx. apply listed_in in Hx as (Hx & _ & B).
    apply (calm_into proj t); assumption.
  Qed.

  Lemma calm_vote x t : s_tx x = XVote t -> calm (panic_cause dbg L x) (validate_vote s t).
  Proof.
    intros Tx. unfold validate_vote. calm1; [calm1|]. calm1; [apply calm_election with (L := L), H|].
    rename a0 into el. rename H1 into Hel.
    set (mask := firstn 10 _). assert (Hm : length mask = 10).
    { unfold mask. rewrite firstn_length, arr_len. reflexivity. }
    assert (exists i, @id_start VError (vt_election t) TVote (Some mask) = Ok i) as (i & Hi).
    { unfold id_start, id_masked. destruct (masked x00 mask) as [u|] eqn:M; [eauto|].
      exfalso. unfold masked in M. revert M. generalize (masked_ok x00 mask). rewrite Hm. discriminate. }
    rewrite Hi. cbn [bind].
    calm1; [rewrite (h_range _ _ H) by apply id_le_refl; intros p X; discriminate X|].
    do 2 (calm1; [calm1|]; try (calm1; [apply (calm_get s L H)|])).
    calm1; [calm1|]. calm1.
    { apply calm_for. intros an Han. calm1; [calm1|]. apply calm_map_err. unfold auth_verify.
      calm1; [calm1|]. calm1; [|calm1]. unfold auth_digest. apply calm_or_panic. intros Hn.
      apply (election_of_iff s L H) in Hel. destruct Hel as (y & A1 & A2 & A3).
      assert (Ei : el_id el = vt_election t) by (rewrite <- A2; unfold s_id; rewrite A3; reflexivity).
      repeat match goal with X : ok_or _ _ = Ok _ |- _ => apply ok_or_ok in X end.
      eapply pc_hash with (t := t) (el := el); [exact Tx|exists y; auto| | |].
      - match goal with X : get_authenticator _ _ = Some _ |- _ => apply find_some in X; exact (proj1 X) end.
      - apply (assoc_in _ rs_eqb_eq) in H8; [exact H8|apply (s_ok (au_keys a6))].
      - rewrite <- auth_pack_message, <- Ei. exact Hn. }
    calm1; [calm1|]. apply calm_for. intros ev _. calm1.
  Qed.

  Lemma calm_mix x t : s_tx x = XMix t -> calm (panic_cause dbg L x) (validate_mix dbg s t).
  Proof.
    intros Tx. unfold validate_mix. calm1; [calm1|]. calm1; [apply calm_election with (L := L), H|].
    rename a0 into el. rename H1 into Hel. calm1; [calm1|]. calm1; [calm1|].
    match goal with X : fail_if (negb (trustee_exists _ _ _)) _ = Ok _ |- _ =>
      apply fail_if_ok, negb_false_iff in X; rename X into Tr end.
    apply trustee_exists_iff in Tr. apply (election_of_iff s L H) in Hel.
    calm1.
    { unfold u8_sub. change (u8v x01) with 1%N.
      destruct (1 <=? u8v (mx_trustee t))%N eqn:Z; [apply calm_ok|]. apply N.leb_gt in Z.
      assert (T0 : mx_trustee t = x00) by (apply u8v_inj; change (u8v x00) with 0%N; lia).
      intros q Hq. destruct dbg eqn:D; [|discriminate Hq]. 
      eapply pc_trustee0; eauto. rewrite <- T0. exact Tr. }
    calm1; [calm1|]. calm1; [calm1|]. calm1.
    { unfold mix_input. destruct (mx_prev t) as [p|] eqn:P.
      - unfold mix_input_prev. calm1; [apply (calm_get s L H)|]. calm1; [calm1|].
        repeat match goal with X : ok_or _ _ = Ok _ |- _ => apply ok_or_ok in X; subst
               | X : lift _ = Ok _ |- _ => apply lift_ok in X; rewrite (h_get _ _ H) in X; injection X as X end.
        match goal with X : entry L p = Some ?y |- _ =>
          apply (entry_in _ _ _ (h_asc _ _ H)) in X as [Y1 Y2]; rename y into y0 end.
        unfold into_typed. destruct (as_mix (s_tx y0)) as [pm|] eqn:M.
        + cbn [or_panic bind]. apply as_mix_iff in M.
          calm1; [|calm1; [calm1|calm1]]. unfold u8_add.
          destruct (_ <? 256)%N eqn:O; [apply calm_ok|].
          change (u8v x01) with 1%N in O. apply N.ltb_ge in O.
          intros q Hq. exfalso. destruct dbg eqn:D; [|discriminate Hq].
          assert (Hin : In y0 l) by (apply (hist_stored true l y0 Hl); exact Y1).
          destruct (hist_accepted true l y0 Hl Hin) as (a9 & b9 & _ & _ & _ & V9).
          apply (mix_accepted true _ _ y0 pm (stored_holds a9) M) in V9 as (_ & _ & [V9|(V9 & _)] & _); [|discriminate].
          pose proof (u8v_lt (mx_trustee pm)). lia.
        + intros q _. eapply pc_prev with (y := y0); eauto; [congruence|]. intros m Em.
          rewrite Em in M. discriminate.
      - unfold mix_input_first. calm1; [calm1|]. calm1; [calm1|]. calm1; [calm1|].
        rewrite id_start_none, id_end_none. cbn [bind].
        calm1; [rewrite (h_range _ _ H) by apply start_le_end; intros q X; discriminate X|].
        calm1; [calm1|]. calm1; [calm1|]. calm1; [|calm1].
        match goal with X : lift (st_range _ _ _) = Ok ?r |- _ =>
          apply lift_ok in X; rewrite (h_range _ _ H) in X by apply start_le_end; injection X as X;
          rewrite between_listed in X end.
        eapply (calm_into_all as_vote TVote); [|symmetry; eassumption]. intros [] Y; discriminate. }
    calm1; [apply (calm_get s L H)|]. calm1; [calm1|]. calm1; [|apply calm_fail].
    repeat match goal with X : ok_or _ _ = Ok _ |- _ => apply ok_or_ok in X; subst
           | X : lift _ = Ok _ |- _ => apply lift_ok in X; rewrite (h_get _ _ H) in X; injection X as X end.
    match goal with X : entry L _ = Some _ |- _ => apply (entry_in _ _ _ (h_asc _ _ H)) in X as [Y1 Y2] end.
    apply (calm_into as_enckey TEncryptionKey); [intros [] Y; discriminate|exact Y1|rewrite Y2; reflexivity].
  Qed.

  Lemma calm_decrypt_from x t el row pks parts :
    s_tx x = XDecryption t -> at_id L (dc_election t) (XElection el) ->
    row_at L el (dc_upstream t) (dc_index t) (dc_contest t) row ->
    (forall p, In p parts -> exists i, In i (dc_trustees t) /\ at_id L (partial_slot t i) (XPartial p)) ->
    forall cts i, i + length cts = length row ->
    calm (panic_cause dbg L x) (decrypt_from i cts (el_threshold el) (el_trustees el) pks parts).
  Proof.
    intros Tx Hel Hrow Hp. induction cts as [|ct cts IH]; intros i Hi; cbn [decrypt_from]; [apply calm_ok|].
    cbn [length] in Hi. calm1.
    { unfold decrypt_shares. calm1; [|calm1]. apply calm_map_res. intros tr _.
      destruct (last_by pd_trustee parts (tr_index tr)) as [p|] eqn:E; [|calm1].
      destruct (last_by kp_trustee pks (tr_index tr)) as [k|]; [|calm1]. calm1; [|calm1].
      apply calm_or_panic. apply find_some in E as [E _]. apply in_rev in E.
      destruct (Hp p E) as (j & Hj & Hat). intros Hn. apply nth_error_None in Hn.
      eapply pc_share with (row := row) (p := p); eauto. lia. }
    calm1; [calm1|]. calm1; [calm1|]. calm1; [|calm1]. apply IH. lia.
  Qed.

  Lemma calm_decryption x t : s_tx x = XDecryption t -> calm (panic_cause dbg L x) (validate_decryption s t).
  Proof.
    intros Tx. unfold validate_decryption. calm1; [calm1|]. calm1; [apply calm_election with (L := L), H|].
    rename a0 into el. rename H1 into Hel. apply (election_of_iff s L H) in Hel.
    calm1; [apply calm_encrypted_vote with (L := L), H|]. rename a0 into row. rename H1 into Hrow.
    apply (encrypted_vote_iff s L H) in Hrow.
    calm1; [apply (calm_multiple s L H)|].
    match goal with X : lift (get_multiple _ _ _) = Ok ?r |- _ =>
      apply lift_ok in X; rewrite (holds_multiple _ _ _ _ H) in X; injection X as X end.
    calm1; [eapply (calm_into_all as_pubkey TKeyGenPublicKey); [intros [] Y; discriminate|symmetry; eassumption]|].
    calm1.
    { apply calm_map_res. intros i _. calm1; [calm1|]. calm1; [apply calm_q, (calm_typed s L H)|calm1]. }
    match goal with X : map_res (fun i => bind (ok_or (get_trustee _ _) _) _) _ = Ok ?r |- _ =>
      rename X into Hparts; rename r into parts end.
    calm1; [calm1|]. calm1; [|calm1].
    apply (calm_decrypt_from x t el row); auto.
    intros p Hp. apply (collect_partials_iff s L H) in Hparts.
    destruct (Forall2_in_r _ _ _ _ Hparts Hp) as (j & Hj & _ & Hat). exists j. auto.
  Qed.

  Lemma panics_have_causes x p : validate dbg s x = Panic p -> panic_cause dbg L x.
  Proof.
    revert p. change (calm (panic_cause dbg L x) (validate dbg s x)). unfold validate. calm1; [calm1|]. calm1.
    { unfold verify_signature. destruct (tx_public (s_tx x)); [|calm1]. destruct (ed_verify _ _ _); calm1. }
    unfold validate_tx. destruct (s_tx x) as [t|t|t|t|t|t|t|t|t|t] eqn:Tx.
    - unfold validate_election. calm1; [calm1|]. calm1; calm1.
    - unfold validate_commitment. calm1; [apply (calm_election s L H)|calm1].
    - unfold validate_share. calm1; [apply (calm_election s L H)|]. calm1; [calm1|]. calm1; [calm1|].
      apply calm_for. intros; calm1.
    - unfold validate_pubkey. calm1; [apply (calm_election s L H)|calm1].
    - unfold validate_enckey. calm1; [apply (calm_election s L H)|]. calm1; [calm1|].
      calm1; [apply (calm_multiple s L H)|].
      match goal with X : lift (get_multiple _ _ _) = Ok ?r |- _ =>
        apply lift_ok in X; rewrite (holds_multiple _ _ _ _ H) in X; injection X as X end.
      calm1; [eapply (calm_into_all as_pubkey TKeyGenPublicKey); [intros [] Y; discriminate|symmetry; eassumption]|].
      calm1; [calm1|]. calm1; [apply calm_for; intros; calm1|]. apply calm_for. intros; calm1.
    - apply calm_vote, Tx.
    - unfold validate_votingend. calm1; [apply (calm_election s L H)|calm1].
    - apply calm_mix, Tx.
    - unfold validate_partial. calm1; [apply (calm_election s L H)|]. calm1; [calm1|]. calm1; [calm1|].
      calm1; [apply (calm_get s L H)|]. calm1; [calm1|]. calm1; [apply (calm_encrypted_vote s L H)|].
      calm1; [apply calm_q, (calm_typed s L H)|]. calm1; [calm1|]. calm1; [calm1|].
      apply calm_for. intros []; intros; calm1.
    - apply calm_decryption, Tx.
  Qed.
End Facts.
