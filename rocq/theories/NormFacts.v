(** * NormFacts: the helper fields of trustees play no part in validation. *)
From Verif Require Import Base BaseFacts Utf8 Cbor Ident BuildId Crypto Types Serde SerdeFacts SpecSerde Store Prost Validate Exonum Audit.
Open Scope list_scope.

Section N.
  Context {C : Crypto} (dbg : bool).
  (** a store with the helper fields of [s] cleared *)
  Record cleared (s s' : Store) : Prop := {
    cl_get : forall i, st_get s' i = let! o := st_get s i in Ok (option_map norm_stx o);
    cl_range : forall a b, st_range s' a b = let! l := st_range s a b in Ok (map norm_stx l) }.
  Context (s s' : Store) (H : cleared s s').

  Lemma get_cleared {E} i : @lift E _ (st_get s' i) = let! o := lift (st_get s i) in Ok (option_map norm_stx o).
  Proof. rewrite (cl_get _ _ H). destruct (st_get s i) as [o|[]|p]; reflexivity. Qed.
  Lemma range_cleared {E} a b : @lift E _ (st_range s' a b) = let! l := lift (st_range s a b) in Ok (map norm_stx l).
  Proof. rewrite (cl_range _ _ H). destruct (st_range s a b) as [o|[]|p]; reflexivity. Qed.
  Lemma multiple_cleared {E} e t : @lift E _ (get_multiple s' e t) = let! l := lift (get_multiple s e t) in Ok (map norm_stx l).
  Proof.
    unfold get_multiple. destruct (id_start e t None) as [a|[]|p]; try reflexivity. cbn [bind]. destruct (id_end e t None) as [b|[]|p]; try reflexivity.
    apply range_cleared.
  Qed.
  Lemma typed_cleared {A} (proj : Tx -> option A) t i : (forall x, proj (norm_tx x) = proj x) -> get_typed proj t s' i = get_typed proj t s i.
  Proof.
    intros P. unfold get_typed. rewrite get_cleared. destruct (lift (st_get s i)) as [[x|]|e|p]; try reflexivity. cbn [bind option_map norm_stx s_tx s_sig]. rewrite P. reflexivity.
  Qed.
  Lemma into_cleared {E A} (proj : Tx -> option A) x : (forall x, proj (norm_tx x) = proj x) -> @into_typed _ E A proj (norm_stx x) = into_typed proj x.
  Proof. intros P. unfold into_typed. cbn [norm_stx s_tx]. rewrite P. reflexivity. Qed.
  Lemma intos_cleared {E A} (proj : Tx -> option A) l : (forall x, proj (norm_tx x) = proj x) -> map_res (@into_typed _ E A proj) (map norm_stx l) = map_res (into_typed proj) l.
  Proof. intros P. induction l as [|x l IH]; [reflexivity|]. cbn [map map_res]. rewrite into_cleared by exact P. rewrite IH. reflexivity. Qed.
  Lemma election_cleared i : election_of s' i = let! e := election_of s i in Ok (norm_election e).
  Proof.
    unfold election_of, get_election, get_typed. rewrite get_cleared. destruct (lift (st_get s i)) as [[x|]|e|p]; try reflexivity.
    cbn [bind option_map norm_stx s_tx s_sig]. destruct (s_tx x); reflexivity.
  Qed.
  Lemma as_norm : (forall x, as_pubkey (norm_tx x) = as_pubkey x) /\ (forall x, as_enckey (norm_tx x) = as_enckey x) /\ (forall x, as_vote (norm_tx x) = as_vote x)
    /\ (forall x, as_mix (norm_tx x) = as_mix x) /\ (forall x, as_partial (norm_tx x) = as_partial x).
  Proof. repeat split; intros []; reflexivity. Qed.

  Lemma find_map {A B} (f : A -> B) (p : B -> bool) l : find p (map f l) = option_map f (find (fun a => p (f a)) l).
  Proof. induction l as [|a l IH]; [reflexivity|]. cbn [map find]. destruct (p (f a)); [reflexivity|exact IH]. Qed.
  Lemma each_map {A B E} (f : A -> B) (p : B -> res E unit) l : for_each (map f l) p = for_each l (fun a => p (f a)).
  Proof. induction l as [|a l IH]; [reflexivity|]. cbn [map for_each]. destruct (p (f a)) as [[]| |]; [exact IH|reflexivity|reflexivity]. Qed.
  Lemma exists_norm e i k : trustee_exists (norm_election e) i k = trustee_exists e i k.
  Proof. unfold trustee_exists. cbn [norm_election el_trustees]. induction (el_trustees e) as [|t l IH]; [reflexivity|]. cbn [map existsb]. rewrite IH. reflexivity. Qed.
  Lemma full_norm e : get_full_trustees (norm_election e) = get_full_trustees e.
  Proof. unfold get_full_trustees. cbn [norm_election el_trustees el_threshold]. rewrite map_length, map_map. reflexivity. Qed.
  Lemma trustee_norm e i : get_trustee (norm_election e) i = option_map norm_trustee (get_trustee e i).
  Proof. unfold get_trustee. cbn [norm_election el_trustees]. rewrite find_map. reflexivity. Qed.
  Lemma encrypted_cleared up idx c mc : encrypted_vote s' up idx c mc = encrypted_vote s up idx c mc.
  Proof.
    destruct as_norm as (_ & _ & V & M & _). unfold encrypted_vote, get_vote, get_mix. destruct (id_type up); try reflexivity; rewrite typed_cleared; auto.
  Qed.
  Lemma shares_norm i l pks ps : decrypt_shares i (map norm_trustee l) pks ps = decrypt_shares i l pks ps.
  Proof. unfold decrypt_shares. f_equal. induction l as [|t l IH]; [reflexivity|]. cbn [map map_res]. rewrite IH. reflexivity. Qed.
  Lemma decrypt_norm cts : forall i th l pks ps, decrypt_from i cts th (map norm_trustee l) pks ps = decrypt_from i cts th l pks ps.
  Proof.
    induction cts as [|c cts IH]; intros; [reflexivity|]. cbn [decrypt_from]. rewrite shares_norm. destruct (decrypt_shares i l pks ps); try reflexivity.
    cbn [bind]. destruct (ok_or _ _); try reflexivity. cbn [bind]. destruct (ok_or _ _); try reflexivity. cbn [bind]. rewrite IH. reflexivity.
  Qed.

  Ltac el := rewrite election_cleared; match goal with |- context [election_of s ?i] => destruct (election_of s i) as [e|?|?]; try reflexivity end; cbn [bind].
  Theorem validate_tx_norm t : validate_tx dbg s' (norm_tx t) = validate_tx dbg s t.
  Proof.
    destruct as_norm as (Pk & Ek & Vt & Mx & Pt).
    destruct t as [t|t|t|t|t|t|t|t|t|t]; cbn [norm_tx validate_tx].
    - unfold validate_election. cbn [norm_election el_id el_trustees el_threshold el_authenticators el_auth_threshold]. rewrite map_length. reflexivity.
    - unfold validate_commitment. el. rewrite exists_norm. reflexivity.
    - unfold validate_share. el. rewrite exists_norm. cbn [norm_election el_trustees]. rewrite map_length, each_map. reflexivity.
    - unfold validate_pubkey. el. rewrite exists_norm. reflexivity.
    - unfold validate_enckey. el. destruct (fail_if _ _) as [[]| |]; try reflexivity. cbn [bind]. rewrite multiple_cleared. destruct (lift (get_multiple s _ _)) as [l| |]; try reflexivity.
      cbn [bind]. rewrite intos_cleared by exact Pk. destruct (map_res _ l) as [pks| |]; try reflexivity. cbn [bind norm_election el_trustees]. rewrite map_length, each_map. reflexivity.
    - unfold validate_vote. destruct (fail_if _ _) as [[]| |]; try reflexivity. cbn [bind]. el. destruct (id_start _ _ _) as [a| |]; try reflexivity. cbn [bind].
      rewrite range_cleared. destruct (lift (st_range s a a)) as [l| |]; try reflexivity. cbn [bind]. rewrite map_length. destruct (fail_if _ _) as [[]| |]; try reflexivity. cbn [bind].
      rewrite get_cleared. destruct (lift (st_get s _)) as [[ek|]| |]; try reflexivity. cbn [bind option_map fail_if].
      rewrite get_cleared. destruct (lift (st_get s _)) as [[ve|]| |]; reflexivity.
    - unfold validate_votingend. el.
    - unfold validate_mix. destruct (fail_if _ _) as [[]| |]; try reflexivity. cbn [bind]. el. rewrite exists_norm. cbn [norm_election el_mix_config]. destruct (fail_if _ _) as [[]| |]; try reflexivity. cbn [bind].
      destruct (fail_if _ _) as [[]| |]; try reflexivity. cbn [bind]. destruct (u8_sub _ _ _) as [pr| |]; try reflexivity. cbn [bind].
      destruct (fail_if _ _) as [[]| |]; try reflexivity. cbn [bind]. destruct (fail_if _ _) as [[]| |]; try reflexivity. cbn [bind].
      assert (I : mix_input dbg s' t = mix_input dbg s t).
      { unfold mix_input. destruct (mx_prev t) as [p|].
        - unfold mix_input_prev. rewrite get_cleared. destruct (lift (st_get s p)) as [[x|]| |]; try reflexivity. cbn [bind option_map ok_or]. rewrite into_cleared by exact Mx. reflexivity.
        - unfold mix_input_first. do 3 (destruct (fail_if _ _) as [[]| |]; try reflexivity; cbn [bind]). destruct (id_start _ _ _) as [a| |]; try reflexivity. cbn [bind].
          destruct (id_end _ _ _) as [b| |]; try reflexivity. cbn [bind]. rewrite range_cleared. destruct (lift (st_range s a b)) as [l| |]; try reflexivity. cbn [bind].
          rewrite map_length, map_map. assert (Q : map (fun x => s_id (norm_stx x)) l = map s_id l) by (apply map_ext; intros x; unfold s_id; cbn [norm_stx s_tx]; destruct (s_tx x); reflexivity).
          rewrite Q. do 2 (destruct (fail_if _ _) as [[]| |]; try reflexivity; cbn [bind]). rewrite intos_cleared by exact Vt. reflexivity. }
      rewrite I. destruct (mix_input dbg s t) as [ins| |]; try reflexivity. cbn [bind]. rewrite get_cleared. destruct (lift (st_get s _)) as [[x|]| |]; try reflexivity.
      cbn [bind option_map ok_or]. rewrite into_cleared by exact Ek. reflexivity.
    - unfold validate_partial. el. rewrite full_norm. destruct (ok_or _ _) as [tr| |]; try reflexivity. cbn [bind]. destruct (fail_if _ _) as [[]| |]; try reflexivity. cbn [bind].
      rewrite get_cleared. destruct (lift (st_get s _)) as [[ve|]| |]; try reflexivity. cbn [bind option_map fail_if norm_election el_mix_config]. rewrite encrypted_cleared.
      destruct (encrypted_vote s _ _ _ _) as [cts| |]; try reflexivity. cbn [bind]. unfold get_keygen_public_key. rewrite typed_cleared by exact Pk. reflexivity.
    - unfold validate_decryption. destruct (fail_if _ _) as [[]| |]; try reflexivity. cbn [bind]. el. cbn [norm_election el_mix_config el_threshold el_trustees]. rewrite encrypted_cleared.
      destruct (encrypted_vote s _ _ _ _) as [cts| |]; try reflexivity. cbn [bind]. rewrite multiple_cleared. destruct (lift (get_multiple s _ _)) as [l| |]; try reflexivity.
      cbn [bind]. rewrite intos_cleared by exact Pk. destruct (map_res _ l) as [pks| |]; try reflexivity. cbn [bind].
      match goal with |- bind ?a _ = bind ?b _ => assert (P : a = b) end.
      { induction (dc_trustees t) as [|i l' IH]; [reflexivity|]. cbn [map_res]. rewrite IH. change (mk_election _ _ _ _ _ _ _ _ _ _) with (norm_election e).
        rewrite trustee_norm. destruct (get_trustee e i) as [tr|]; [|reflexivity]. cbn [option_map ok_or bind norm_trustee tr_index]. unfold get_partial_decryption. rewrite typed_cleared by exact Pt. reflexivity. }
      rewrite P. clear P. match goal with |- bind ?m _ = _ => destruct m as [ps| |]; try reflexivity end. cbn [bind]. unfold decrypt_vote. rewrite decrypt_norm. reflexivity.
  Qed.
  Theorem validate_norm x : validate dbg s' (norm_stx x) = validate dbg s x.
  Proof.
    unfold validate. assert (I : s_id (norm_stx x) = s_id x) by (unfold s_id; cbn [norm_stx s_tx]; destruct (s_tx x); reflexivity).
    assert (T : s_type (norm_stx x) = s_type x) by (unfold s_type; cbn [norm_stx s_tx]; destruct (s_tx x); reflexivity).
    assert (B : tx_bytes (norm_tx (s_tx x)) = tx_bytes (s_tx x)) by (unfold tx_bytes; rewrite ser_norm; reflexivity).
    assert (P : tx_public (norm_tx (s_tx x)) = tx_public (s_tx x)) by (destruct (s_tx x); reflexivity).
    rewrite I, T. unfold verify_signature. cbn [norm_stx s_tx s_sig]. rewrite P, B, validate_tx_norm. reflexivity.
  Qed.
End N.

Section A.
  Context {C : Crypto} (dbg : bool).
  Definition cleared_ms (m : MemStore) : MemStore := map (fun p => (fst p, norm_stx (snd p))) m.
  Lemma ms_cleared m : cleared (ms_store m) (ms_store (cleared_ms m)).
  Proof.
    split; cbn [ms_store st_get st_range bind].
    - intros i. f_equal. unfold ms_get, cleared_ms. induction m as [|[k x] m IH]; [reflexivity|]. cbn [map bt_get fst snd]. destruct (bytes_eqb _ k); [reflexivity|exact IH].
    - intros a b. unfold ms_range, bt_range. destruct (bytes_leb _ _); [|reflexivity]. cbn [bind]. f_equal. unfold cleared_ms. clear.
      induction m as [|[k x] m IH]; [reflexivity|]. cbn [map filter fst snd]. destruct (_ && _); [|exact IH]. cbn [map snd fst]. rewrite IH. reflexivity.
  Qed.
  Lemma norm_id x : s_id (norm_stx x) = s_id x.
  Proof. unfold s_id. cbn [norm_stx s_tx]. destruct (s_tx x); reflexivity. Qed.
  Lemma set_cleared m x : ms_set (cleared_ms m) (norm_stx x) = cleared_ms (ms_set m x).
  Proof.
    unfold ms_set. rewrite norm_id. unfold cleared_ms. induction m as [|[k y] m IH]; [reflexivity|]. cbn [map bt_insert fst snd].
    destruct (lex _ k); cbn [map fst snd]; try reflexivity. rewrite IH. reflexivity.
  Qed.
  Definition map_ok {E A B} (f : A -> B) (m : res E A) : res E B := match m with Ok a => Ok (f a) | Err e => Err e | Panic p => Panic p end.
  Lemma audit_from_norm l : forall m, audit_from dbg (cleared_ms m) (map norm_stx l) = map_ok cleared_ms (audit_from dbg m l).
  Proof.
    induction l as [|x l IH]; intros m; [reflexivity|]. cbn [map audit_from]. rewrite (validate_norm dbg _ _ (ms_cleared m)), norm_id.
    destruct (validate dbg (ms_store m) x) as [[]| |]; cbn [map_err bind]; [|reflexivity|reflexivity]. rewrite set_cleared. apply IH.
  Qed.
  Theorem audit_norm l : audit dbg (map norm_stx l) = map_ok cleared_ms (audit dbg l).
  Proof.
    destruct l as [|x l]; [reflexivity|]. unfold audit. cbn [map].
    assert (T : s_type (norm_stx x) = s_type x) by (unfold s_type; cbn [norm_stx s_tx]; destruct (s_tx x); reflexivity). rewrite T.
    destruct (fail_if _ _) as [[]| |]; [|reflexivity|reflexivity]. cbn [bind]. apply (audit_from_norm (x :: l) ms_empty).
  Qed.
End A.
