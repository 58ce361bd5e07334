(** * AgreeFacts: the helper fields of trustees are never read. *)
From Verif Require Import Base BaseFacts Utf8 Cbor Ident BuildId IdentFacts Crypto Types Serde SpecSerde SerdeFacts Store Prost Validate
  Exonum Audit Trustee Tasks SpecAgree.
Open Scope list_scope.
Set Implicit Arguments.

Lemma bind_agree {E A B D} (R : A -> B -> Prop) (m : res E A) (n : res E B) (f : A -> res E D) (g : B -> res E D) :
  res_agree R m n -> (forall a b, R a b -> f a = g b) -> bind m f = bind n g.
Proof. intros H F. destruct H; cbn [bind]; auto. Qed.
Lemma map_err_agree {E F A B} (R : A -> B -> Prop) (h : E -> F) (m : res E A) (n : res E B) :
  res_agree R m n -> res_agree R (map_err h m) (map_err h n).
Proof. destruct 1; constructor; auto. Qed.
Lemma lift_agree {E A B} (R : A -> B -> Prop) (m : res Empty_set A) (n : res Empty_set B) :
  res_agree R m n -> res_agree R (@lift E A m) (@lift E B n).
Proof. destruct 1; cbn [lift]; [constructor; auto|destruct e|constructor]. Qed.
Lemma forall2_len {A B} (R : A -> B -> Prop) l l' : Forall2 R l l' -> List.length l = List.length l'.
Proof. induction 1; cbn [List.length]; auto. Qed.
Lemma forall2_map {A B D} (R : A -> B -> Prop) (f : A -> D) (g : B -> D) l l' :
  (forall a b, R a b -> f a = g b) -> Forall2 R l l' -> map f l = map g l'.
Proof. intros H F. induction F; cbn [map]; [reflexivity|]. f_equal; auto. Qed.
Lemma forall2_existsb {A B} (R : A -> B -> Prop) (f : A -> bool) (g : B -> bool) l l' :
  (forall a b, R a b -> f a = g b) -> Forall2 R l l' -> existsb f l = existsb g l'.
Proof. intros H F. induction F; cbn [existsb]; [reflexivity|]. f_equal; auto. Qed.
Lemma forall2_find {A B} (R : A -> B -> Prop) (f : A -> bool) (g : B -> bool) l l' :
  (forall a b, R a b -> f a = g b) -> Forall2 R l l' -> opt_agree R (find f l) (find g l').
Proof.
  intros H F. induction F as [|a b l l' X F IH]; cbn [find]; [constructor|].
  rewrite (H _ _ X). destruct (g b); [constructor; exact X|exact IH].
Qed.
Lemma forall2_for_each {E A B} (R : A -> B -> Prop) (f : A -> res E unit) (g : B -> res E unit) l l' :
  (forall a b, R a b -> f a = g b) -> Forall2 R l l' -> for_each l f = for_each l' g.
Proof. intros H F. induction F as [|a b l l' X F IH]; cbn [for_each]; [reflexivity|]. rewrite (H _ _ X), IH. reflexivity. Qed.
Lemma forall2_map_res {E A B D} (R : A -> B -> Prop) (f : A -> res E D) (g : B -> res E D) l l' :
  (forall a b, R a b -> f a = g b) -> Forall2 R l l' -> map_res f l = map_res g l'.
Proof. intros H F. induction F as [|a b l l' X F IH]; cbn [map_res]; [reflexivity|]. rewrite (H _ _ X), IH. reflexivity. Qed.

Section Facts.
  Context {C : Crypto}.

  Definition el_agree (a b : ElectionTx) : Prop := content_agree (XElection a) (XElection b).

  (** a projection to another type than elections does not see the difference *)
  Definition blind {A} (proj : Tx -> option A) : Prop := forall t u, content_agree t u -> proj t = proj u.
  Lemma blind_intro {A} (proj : Tx -> option A) : (forall e, proj (XElection e) = None) -> blind proj.
  Proof.
    intros H t u Q. destruct t, u; cbn [content_agree] in Q; try (rewrite !H; reflexivity); congruence.
  Qed.
  Lemma agree_type t u : content_agree t u -> tx_type t = tx_type u.
  Proof. destruct t, u; cbn [content_agree]; intros; congruence || reflexivity. Qed.
  Lemma agree_id t u : content_agree t u -> tx_id t = tx_id u.
  Proof. destruct t, u; cbn [content_agree tx_id]; intros; tauto || congruence. Qed.
  Lemma agree_public t u : content_agree t u -> tx_public t = tx_public u.
  Proof.
    destruct t, u; cbn [content_agree tx_public]; intros H; try congruence.
    destruct H as (_ & H & _). congruence.
  Qed.
  Lemma agree_bytes t u : content_agree t u -> tx_bytes t = tx_bytes u.
  Proof. intros H. unfold tx_bytes. rewrite <- (ser_norm t), <- (ser_norm u), (agree_norm _ _ H). reflexivity. Qed.

  Lemma get_multiple_agree s s' e ty : store_agree s s' ->
    res_agree (Forall2 stx_agree) (get_multiple s e ty) (get_multiple s' e ty).
  Proof.
    intros [_ R]. unfold get_multiple. destruct (id_start e ty None) as [a|x|p]; cbn [bind]; [|constructor..].
    destruct (id_end e ty None) as [b|x|p]; cbn [bind]; [apply R|constructor..].
  Qed.
  Lemma get_typed_agree {A} (proj : Tx -> option A) ty s s' i : blind proj -> store_agree s s' ->
    get_typed proj ty s i = get_typed proj ty s' i.
  Proof.
    intros B [G _]. unfold get_typed. eapply bind_agree; [apply lift_agree, G|].
    intros a b [x y [Q S]|]; [|reflexivity]. rewrite (B _ _ Q), S. reflexivity.
  Qed.
  Lemma get_election_agree s s' i : store_agree s s' ->
    res_agree (fun p q => el_agree (fst p) (fst q)) (get_election s i) (get_election s' i).
  Proof.
    intros [G _]. unfold get_election, get_typed. specialize (G i). destruct G as [a b O|e|p]; cbn [lift bind];
      [|destruct e|constructor].
    destruct O as [x y [Q S]|]; [|constructor].
    destruct (s_tx x) eqn:X, (s_tx y) eqn:Y; cbn [as_election]; try discriminate Q; try constructor.
    cbn [fst]. unfold el_agree. exact Q.
  Qed.
  Lemma election_of_agree s s' i : store_agree s s' -> res_agree el_agree (election_of s i) (election_of s' i).
  Proof.
    intros H. unfold election_of, q. destruct (get_election_agree i H); cbn [map_err bind]; constructor; auto.
  Qed.
  Lemma into_agree {E A} (proj : Tx -> option A) l l' : blind proj -> Forall2 stx_agree l l' ->
    map_res (@into_typed C E A proj) l = map_res (into_typed proj) l'.
  Proof.
    intros B F. eapply forall2_map_res; [|exact F]. intros x y [Q _]. unfold into_typed. rewrite (B _ _ Q). reflexivity.
  Qed.

  Lemma ag_len a b : el_agree a b -> List.length (el_trustees a) = List.length (el_trustees b).
  Proof. intros (_ & _ & F & _). exact (forall2_len F). Qed.
  Lemma ag_exists a b i k : el_agree a b -> trustee_exists a i k = trustee_exists b i k.
  Proof.
    intros (_ & _ & F & _). eapply forall2_existsb; [|exact F]. intros x y [P I]. rewrite P, I. reflexivity.
  Qed.
  Lemma ag_full a b : el_agree a b -> get_full_trustees a = get_full_trustees b.
  Proof.
    intros H. pose proof (ag_len H) as L. destruct H as (_ & _ & F & T & _). unfold get_full_trustees. rewrite L, T.
    eapply forall2_map; [|exact F]. intros x y [P I]. rewrite P, I. reflexivity.
  Qed.
  Lemma decrypt_agree i cts th l l' pks ps : Forall2 trustee_agree l l' ->
    decrypt_from i cts th l pks ps = decrypt_from i cts th l' pks ps.
  Proof.
    intros F. revert i. induction cts as [|ct cts IH]; intros i; cbn [decrypt_from]; [reflexivity|].
    assert (D : decrypt_shares i l pks ps = decrypt_shares i l' pks ps).
    { unfold decrypt_shares. f_equal. eapply forall2_map_res; [|exact F]. intros a b [P I]. rewrite I. reflexivity. }
    rewrite D, IH. reflexivity.
  Qed.

  Ltac blind := apply blind_intro; reflexivity.
  Lemma b_vote : blind as_vote. Proof. blind. Qed.
  Lemma b_mix : blind as_mix. Proof. blind. Qed.
  Lemma b_pubkey : blind as_pubkey. Proof. blind. Qed.
  Lemma b_enckey : blind as_enckey. Proof. blind. Qed.
  Lemma b_partial : blind as_partial. Proof. blind. Qed.
  Lemma b_share : blind as_share. Proof. blind. Qed.
  Lemma b_commitment : blind as_commitment. Proof. blind. Qed.

  Section TwoStores.
    Context (s s' : Store) (H : store_agree s s').

    Lemma with_election {D} i (f g : ElectionTx -> res VError D) :
      (forall a b, el_agree a b -> f a = g b) -> bind (election_of s i) f = bind (election_of s' i) g.
    Proof. intros F. eapply bind_agree; [exact (election_of_agree i H)|exact F]. Qed.
    Lemma with_multiple {E A D} (proj : Tx -> option A) e ty (f : list A -> res E D) : blind proj ->
      (let! l := lift (get_multiple s e ty) in let! x := map_res (into_typed proj) l in f x)
      = (let! l := lift (get_multiple s' e ty) in let! x := map_res (into_typed proj) l in f x).
    Proof.
      intros B. eapply bind_agree; [exact (lift_agree (get_multiple_agree e ty H))|].
      intros l l' F. rewrite (into_agree B F). reflexivity.
    Qed.
    Lemma with_presence {E D} i (f : bool -> res E D) :
      (let! o := lift (st_get s i) in f (match o with None => true | Some _ => false end))
      = (let! o := lift (st_get s' i) in f (match o with None => true | Some _ => false end)).
    Proof. eapply bind_agree; [exact (lift_agree (proj1 H i))|]. intros a b [x y _|]; reflexivity. Qed.

    Lemma row_agree up idx c mc : encrypted_vote s up idx c mc = encrypted_vote s' up idx c mc.
    Proof.
      unfold encrypted_vote. unfold get_vote, get_mix.
      rewrite (get_typed_agree TVote up b_vote H), (get_typed_agree TMix up b_mix H). reflexivity.
    Qed.

    Lemma mix_input_agree dbg t : mix_input dbg s t = mix_input dbg s' t.
    Proof.
      unfold mix_input. destruct (mx_prev t) as [p|].
      - unfold mix_input_prev. eapply bind_agree; [exact (lift_agree (proj1 H p))|].
        intros a b [x y [Q S]|]; [|reflexivity]. cbn [ok_or bind]. unfold into_typed. rewrite (b_mix _ _ Q). reflexivity.
      - unfold mix_input_first.
        destruct (@fail_if VError _ _) as [[]|e|p]; [|reflexivity..]. cbn [bind].
        destruct (@fail_if VError _ _) as [[]|e|p]; [|reflexivity..]. cbn [bind].
        destruct (@fail_if VError _ _) as [[]|e|p]; [|reflexivity..]. cbn [bind].
        destruct (id_start _ _ _) as [a|e|p]; cbn [bind]; [|reflexivity..].
        destruct (id_end _ _ _) as [b|e|p]; cbn [bind]; [|reflexivity..].
        eapply bind_agree; [exact (lift_agree (proj2 H a b))|].
        intros l l' F. rewrite (forall2_len F).
        assert (M : map s_id l = map s_id l').
        { eapply forall2_map; [|exact F]. intros x y [Q _]. exact (agree_id _ _ Q). }
        rewrite M, (into_agree b_vote F). reflexivity.
    Qed.

    Lemma validate_tx_agree dbg t u : content_agree t u -> validate_tx dbg s t = validate_tx dbg s' u.
    Proof.
      intros Q. destruct t as [t|t|t|t|t|t|t|t|t|t], u as [u|u|u|u|u|u|u|u|u|u]; try discriminate Q.
      1:{ pose proof (ag_len (Q : el_agree t u)) as L. cbn [validate_tx]. unfold validate_election. rewrite L.
          destruct Q as (-> & _ & _ & -> & -> & -> & _). reflexivity. }
      all: cbn [content_agree] in Q; injection Q as <-; cbn [validate_tx].
      - apply with_election. intros a b A. rewrite (ag_exists _ _ A). reflexivity.
      - apply with_election. intros a b A. rewrite (ag_exists _ _ A), (ag_len A).
        destruct (@fail_if VError _ _) as [[]|e|p]; [|reflexivity..]. cbn [bind].
        destruct (@fail_if VError _ _) as [[]|e|p]; [|reflexivity..]. cbn [bind].
        destruct A as (_ & _ & F & _). eapply forall2_for_each; [|exact F]. intros x y [P I]. rewrite I. reflexivity.
      - apply with_election. intros a b A. rewrite (ag_exists _ _ A). reflexivity.
      - apply with_election. intros a b A. rewrite (proj1 (proj2 A)).
        destruct (@fail_if VError _ _) as [[]|e|p]; [|reflexivity..]. cbn [bind].
        eapply bind_agree; [exact (lift_agree (get_multiple_agree _ _ H))|].
        intros l l' F. rewrite (into_agree b_pubkey F), (ag_len A).
        destruct (map_res _ l') as [pks|e|p]; [|reflexivity..]. cbn [bind].
        destruct (@fail_if VError _ _) as [[]|e|p]; [|reflexivity..]. cbn [bind].
        destruct A as (_ & _ & G & _). f_equal. eapply forall2_for_each; [|exact G].
        intros x y [P I]. rewrite P, I. reflexivity.
      - unfold validate_vote. destruct (@fail_if VError _ _) as [[]|e|p]; [|reflexivity..]. cbn [bind].
        apply with_election. intros a b A. destruct (id_start _ _ _) as [i|e|p]; cbn [bind]; [|reflexivity..].
        eapply bind_agree; [exact (lift_agree (proj2 H _ _))|]. intros l l' F. rewrite (forall2_len F).
        destruct (@fail_if VError _ _) as [[]|e|p]; [|reflexivity..]. cbn [bind].
        eapply bind_agree; [exact (lift_agree (proj1 H _))|]. intros o o' O.
        assert (X : match o with None => true | Some _ => false end = match o' with None => true | Some _ => false end)
          by (destruct O; reflexivity).
        rewrite X. clear X O. destruct (@fail_if VError _ _) as [[]|e|p]; [|reflexivity..]. cbn [bind].
        eapply bind_agree; [exact (lift_agree (proj1 H _))|]. intros o1 o1' O.
        assert (X : match o1 with None => false | Some _ => true end = match o1' with None => false | Some _ => true end)
          by (destruct O; reflexivity).
        rewrite X. clear X O. destruct (@fail_if VError _ _) as [[]|e|p]; [|reflexivity..]. cbn [bind].
        destruct A as (A1 & _ & _ & _ & A2 & _ & _ & A3 & _). unfold get_authenticator, get_ballot.
        rewrite A1, A2, A3. reflexivity.
      - apply with_election. intros a b A. rewrite (proj1 (proj2 A)). reflexivity.
      - unfold validate_mix. destruct (@fail_if VError _ _) as [[]|e|p]; [|reflexivity..]. cbn [bind].
        apply with_election. intros a b A. rewrite (ag_exists _ _ A), mix_input_agree.
        destruct A as (_ & _ & _ & _ & _ & _ & A & _). rewrite A. clear A.
        destruct (@fail_if VError _ _) as [[]|e|p]; [|reflexivity..]. cbn [bind].
        destruct (@fail_if VError _ _) as [[]|e|p]; [|reflexivity..]. cbn [bind].
        destruct (u8_sub _ _ _) as [n|e|p]; [|reflexivity..]. cbn [bind].
        destruct (@fail_if VError _ _) as [[]|e|p]; [|reflexivity..]. cbn [bind].
        destruct (@fail_if VError _ _) as [[]|e|p]; [|reflexivity..]. cbn [bind].
        destruct (mix_input _ _ _) as [ins|e|p]; [|reflexivity..]. cbn [bind].
        eapply bind_agree; [exact (lift_agree (proj1 H _))|]. intros o o' [x y [Q S]|]; [|reflexivity].
        cbn [ok_or bind]. unfold into_typed. rewrite (b_enckey _ _ Q). reflexivity.
      - unfold validate_partial. apply with_election. intros a b A. rewrite (ag_full A).
        destruct (ok_or _ _) as [tr|e|p]; [|reflexivity..]. cbn [bind].
        destruct (@fail_if VError _ _) as [[]|e|p]; [|reflexivity..]. cbn [bind].
        eapply bind_agree; [exact (lift_agree (proj1 H _))|]. intros o o' O.
        assert (X : match o with None => true | Some _ => false end = match o' with None => true | Some _ => false end)
          by (destruct O; reflexivity).
        rewrite X. clear X O. rewrite row_agree. destruct A as (_ & _ & _ & _ & _ & _ & A & _). rewrite A. clear A.
        unfold get_keygen_public_key. rewrite (get_typed_agree TKeyGenPublicKey _ b_pubkey H). reflexivity.
      - unfold validate_decryption. destruct (@fail_if VError _ _) as [[]|e|p]; [|reflexivity..]. cbn [bind].
        apply with_election. intros a b A. rewrite row_agree.
        assert (GT : forall i, opt_agree trustee_agree (get_trustee a i) (get_trustee b i)).
        { intros i. destruct A as (_ & _ & F & _). eapply forall2_find; [|exact F]. intros x y [P I]. rewrite I. reflexivity. }
        destruct A as (_ & _ & F & TH & _ & _ & MC & _). rewrite MC, TH.
        destruct (encrypted_vote _ _ _ _ _) as [cts|e|p]; [|reflexivity..]. cbn [bind].
        eapply bind_agree; [exact (lift_agree (get_multiple_agree _ _ H))|].
        intros l l' G. rewrite (into_agree b_pubkey G).
        destruct (map_res _ l') as [pks|e|p]; [|reflexivity..]. cbn [bind].
        match goal with |- bind ?m _ = bind ?n _ => assert (M : m = n) end.
        { eapply (forall2_map_res (R := eq)); [|clear; induction (dc_trustees t); constructor; auto].
          intros i ? <-. destruct (GT i) as [x y [P I]|]; [|reflexivity]. cbn [ok_or bind]. rewrite I.
          unfold get_partial_decryption. rewrite (get_typed_agree TPartialDecryption _ b_partial H). reflexivity. }
        rewrite M. clear M. destruct (map_res _ (dc_trustees t)) as [ps|e|p]; [|reflexivity..]. cbn [bind].
        destruct (@fail_if VError _ _) as [[]|e|p]; [|reflexivity..]. cbn [bind].
        unfold decrypt_vote. rewrite (decrypt_agree 0 cts (el_threshold b) pks ps F). reflexivity.
    Qed.

    Lemma validate_agree dbg x y : stx_agree x y -> validate dbg s x = validate dbg s' y.
    Proof.
      intros [Q S]. unfold validate, verify_signature, s_id, s_type.
      rewrite (agree_id _ _ Q), (agree_type _ _ Q), (agree_public _ _ Q), (agree_bytes _ _ Q), S, (validate_tx_agree dbg _ _ Q).
      reflexivity.
    Qed.
  End TwoStores.

  (** ** Stores built from related transactions *)
  Definition entry_agree (p r : bytes * STx) : Prop := fst p = fst r /\ stx_agree (snd p) (snd r).
  Lemma insert_agree m m' k x y : Forall2 entry_agree m m' -> stx_agree x y ->
    Forall2 entry_agree (bt_insert m k x) (bt_insert m' k y).
  Proof.
    intros F X. induction F as [|[a u] [b v] m m' [K V] F IH]; cbn [bt_insert]; [constructor; [split; [reflexivity|exact X]|constructor]|].
    cbn [fst snd] in K, V. subst b. destruct (lex k a); repeat (constructor; auto).
  Qed.
  Lemma set_agree m m' x y : Forall2 entry_agree m m' -> stx_agree x y -> Forall2 entry_agree (ms_set m x) (ms_set m' y).
  Proof. intros F X. unfold ms_set, s_id. rewrite (agree_id _ _ (proj1 X)). apply insert_agree; assumption. Qed.
  Lemma from_agree l l' : Forall2 stx_agree l l' -> Forall2 entry_agree (ms_from l) (ms_from l').
  Proof.
    unfold ms_from. intros F. assert (N : Forall2 entry_agree ms_empty ms_empty) by constructor.
    revert N. generalize ms_empty at 1 3. generalize ms_empty. induction F as [|x y l l' X F IH]; intros m m' M; cbn [fold_left]; [exact M|].
    apply IH, set_agree; assumption.
  Qed.
  Lemma store_of_agree m m' : Forall2 entry_agree m m' -> store_agree (ms_store m) (ms_store m').
  Proof.
    intros F. split.
    - intros i. cbn [ms_store st_get]. constructor. unfold ms_get. induction F as [|[a u] [b v] m m' [K V] F IH]; cbn [bt_get]; [constructor|].
      cbn [fst snd] in K, V. subst b. destruct (bytes_eqb _ a); [constructor; exact V|exact IH].
    - intros a b. cbn [ms_store st_range]. unfold ms_range, bt_range. destruct (bytes_leb _ _); cbn [bind]; [constructor|constructor].
      induction F as [|[k u] [k' v] m m' [K V] F IH]; cbn [filter]; [constructor|].
      cbn [fst snd] in *. subst k'. destruct (_ && _); cbn [map snd]; [constructor; assumption|exact IH].
  Qed.

  Lemma audit_agree dbg m m' l l' : Forall2 entry_agree m m' -> Forall2 stx_agree l l' ->
    res_agree (Forall2 entry_agree) (audit_from dbg m l) (audit_from dbg m' l').
  Proof.
    intros M F. revert m m' M. induction F as [|x y l l' X F IH]; intros m m' M; cbn [audit_from]; [constructor; exact M|].
    rewrite (validate_agree (store_of_agree M) dbg X). unfold s_id. rewrite (agree_id _ _ (proj1 X)).
    destruct (validate dbg (ms_store m') y) as [[]|e|p]; cbn [map_err bind]; [|constructor..].
    apply IH, set_agree; assumption.
  Qed.
End Facts.

Section Follow.
  Context {C : Crypto} {TC : TCrypto}.
  Context (dbg : bool) (sk : ed_secret) (r : Rnd) (s s' : Store) (H : store_agree s s').

  Lemma t_election_agree i : res_agree el_agree (t_election s i) (t_election s' i).
  Proof. unfold t_election. destruct (get_election_agree i H); cbn [map_err bind]; constructor; auto. Qed.
  Lemma t_multiple_agree {A} (proj : Tx -> option A) e ty : blind proj -> t_multiple proj s e ty = t_multiple proj s' e ty.
  Proof.
    intros B. unfold t_multiple. eapply bind_agree; [exact (lift_agree (get_multiple_agree e ty H))|].
    intros l l' F. exact (into_agree B F).
  Qed.
  Lemma t_enckey_agree e : t_enckey s e = t_enckey s' e.
  Proof.
    unfold t_enckey. eapply bind_agree; [exact (lift_agree (proj1 H _))|]. intros o o' [x y [Q S]|]; [|reflexivity].
    cbn [or_panic bind]. unfold into_typed. rewrite (b_enckey _ _ Q). reflexivity.
  Qed.
  Lemma trustee_agree_of a b k : el_agree a b -> trustee_from_election a k = trustee_from_election b k.
  Proof. intros A. unfold trustee_from_election. rewrite (ag_full A). reflexivity. Qed.
  Lemma partials_agree a b t c m : el_agree a b -> produce_partials sk r s a t c m = produce_partials sk r s' b t c m.
  Proof.
    intros A. unfold produce_partials. rewrite (proj1 A), (t_multiple_agree _ _ b_share), (t_multiple_agree _ _ b_commitment).
    rewrite (t_multiple_agree _ _ b_vote). reflexivity.
  Qed.
  Lemma first_mixes_agree n a b t k l : el_id a = el_id b -> first_mixes sk r n a t k l = first_mixes sk r n b t k l.
  Proof.
    intros A. revert n. induction l as [|[c vs] l IH]; intros n; cbn [first_mixes]; [reflexivity|]. rewrite A, IH. reflexivity.
  Qed.

  Lemma follow_agree x y : stx_agree x y -> generate_transactions dbg sk r s x = generate_transactions dbg sk r s' y.
  Proof.
    intros [Q _]. unfold generate_transactions.
    destruct (s_tx x) as [t|t|t|t|t|t|t|t|t|t], (s_tx y) as [u|u|u|u|u|u|u|u|u|u]; try discriminate Q; try reflexivity.
    1:{ unfold process_election. rewrite (trustee_agree_of (node_key sk) (Q : el_agree t u)), (proj1 Q). reflexivity. }
    all: cbn [content_agree] in Q; injection Q as <-.
    - eapply bind_agree; [apply t_election_agree|]. intros a b A. rewrite (trustee_agree_of _ A), (proj1 A), (ag_len A).
      rewrite (t_multiple_agree _ _ b_commitment). reflexivity.
    - eapply bind_agree; [apply t_election_agree|]. intros a b A. rewrite (trustee_agree_of _ A), (proj1 A), (ag_len A).
      rewrite (t_multiple_agree _ _ b_commitment), (t_multiple_agree _ _ b_share). reflexivity.
    - eapply bind_agree; [apply t_election_agree|]. intros a b A. rewrite (proj1 (proj2 A)), (proj1 A), (ag_len A).
      rewrite (t_multiple_agree _ _ b_pubkey). reflexivity.
    - eapply bind_agree; [apply t_election_agree|]. intros a b A. rewrite (trustee_agree_of _ A).
      destruct (trustee_from_election _ _) as [tr|]; [|reflexivity].
      pose proof A as A'. destruct A' as (I & _ & _ & _ & _ & _ & MC & _ & CS & _). rewrite MC, CS, I.
      destruct (el_mix_config b).
      + destruct (Byte.eqb _ _); [|reflexivity]. rewrite t_enckey_agree, (t_multiple_agree _ _ b_vote).
        destruct (t_enckey _ _); cbn [bind]; [|reflexivity..]. destruct (t_multiple _ _ _ _); cbn [bind]; [|reflexivity..].
        apply first_mixes_agree, I.
      + destruct (el_contests b); [reflexivity|]. apply partials_agree, A.
    - eapply bind_agree; [apply t_election_agree|]. intros a b A. rewrite (trustee_agree_of _ A).
      destruct (trustee_from_election _ _) as [tr|]; [|reflexivity].
      pose proof A as A'. destruct A' as (I & _ & _ & TH & _ & _ & MC & _ & _ & _). rewrite MC, TH, I.
      destruct (el_mix_config b); [|reflexivity]. destruct (u8_add _ _ _); cbn [bind]; [|reflexivity..].
      destruct (Byte.eqb _ _); [apply partials_agree, A|]. destruct (u8_add _ _ _); cbn [bind]; [|reflexivity..].
      destruct (Byte.eqb _ _); [|reflexivity]. rewrite t_enckey_agree. reflexivity.
    - eapply bind_agree; [apply t_election_agree|]. intros a b A. rewrite (trustee_agree_of _ A), (ag_full A).
      destruct (trustee_from_election _ _) as [tr|]; [|reflexivity].
      pose proof A as A'. destruct A' as (I & _ & _ & TH & _). rewrite I, TH.
      eapply bind_agree; [exact (lift_agree (proj2 H _ _))|]. intros l l' F. rewrite (forall2_len F), (into_agree b_partial F).
      unfold t_row, get_vote, get_mix. rewrite (get_typed_agree TVote _ b_vote H), (get_typed_agree TMix _ b_mix H).
      rewrite (t_multiple_agree _ _ b_pubkey). reflexivity.
  Qed.
End Follow.
