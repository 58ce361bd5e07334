(** * CliFacts: posting a transportable transaction; reading through the REST interface. *)
From Verif Require Import Base BaseFacts Hex HexFacts Utf8 Cbor CborFacts Ident BuildId IdentFacts Crypto Types Serde SerdeFacts
  SpecSerde Store SpecStore StoreFacts Prost Validate ValidateFacts SpecHist HistFacts SpecValid ValidFacts3 Exonum SpecLedger LedgerFacts
  Api Encrypt Cli SpecCli TransportFacts.
Open Scope list_scope.

Section Facts.
  Context {C : Crypto}.

  Lemma env_carries x : transportable x -> carries (into_env x) (norm_stx x).
  Proof. intros [A B]. unfold carries. cbn [into_env en_data]. apply stx_roundtrip; assumption. Qed.
  Lemma norm_s_id x : s_id (norm_stx x) = s_id x.
  Proof. unfold s_id, norm_stx. cbn [s_tx]. destruct (s_tx x); reflexivity. Qed.
  Lemma env_honest x : transportable x -> honest (into_env x).
  Proof.
    intros T y D. pose proof (env_carries x T) as D'. unfold carries in *. rewrite D in D'. injection D' as ->.
    cbn [into_env en_id sv]. rewrite norm_s_id. reflexivity.
  Qed.
  Lemma env_key x : sv (en_id (into_env x)) = id_to_string (s_id x).
  Proof. reflexivity. Qed.

  (** what happens to a posted transaction *)
  Lemma post_ok dbg L x L' : transportable x ->
    (verify_and_store dbg L (into_env x) = Ok L' <->
     bt_get L (id_to_string (s_id x)) = None /\ validate dbg (ex_store L) (norm_stx x) = Ok tt
     /\ L' = bt_insert L (id_to_string (s_id x)) (into_env x)).
  Proof.
    intros T. rewrite store_ok, env_key. split.
    - intros (A & (y & D & V) & E). pose proof (env_carries x T) as D'. unfold carries in *. rewrite D in D'. injection D' as ->. auto.
    - intros (A & V & E). split; [exact A|]. split; [|exact E]. exists (norm_stx x). split; [apply env_carries, T|exact V].
  Qed.
  Lemma fetch_inserted L x : transportable x -> fetch (bt_insert L (id_to_string (s_id x)) (into_env x)) (s_id x) = Ok (norm_stx x).
  Proof.
    intros T. unfold fetch, get_tx. cbn [sv]. rewrite bt_get_insert, bytes_eqb_refl. cbn [ok_or bind].
    unfold api_decode. pose proof (env_carries x T) as D. unfold carries in D. rewrite D. reflexivity.
  Qed.
  Lemma fetch_honest L i x : lwf L -> honest_ledger L -> In x (decoded L) -> s_id x = i -> fetch L i = Ok x.
  Proof.
    intros W H I <-. apply decoded_in in I as (e & A & D); auto. apply (bt_get_in _ _ _ (lw_sorted _ W)) in A.
    unfold fetch, get_tx. cbn [sv]. rewrite A. cbn [ok_or bind]. unfold api_decode. unfold carries in D. rewrite D. reflexivity.
  Qed.
  Lemma free_slot L i : lwf L -> honest_ledger L -> (bt_get L (id_to_string i) = None <-> ~ occupied (decoded L) i).
  Proof.
    intros W H. split.
    - intros G (x & I & <-). apply decoded_in in I as (e & A & _); auto. apply (bt_get_in _ _ _ (lw_sorted _ W)) in A. congruence.
    - intros O. destruct (bt_get L (id_to_string i)) as [e|] eqn:G; [|reflexivity]. exfalso. apply O.
      apply (bt_get_in _ _ _ (lw_sorted _ W)) in G. destruct (H _ _ G) as (x & D & E). apply id_to_string_inj in E. subst i.
      exists x. split; [|reflexivity]. apply decoded_in; eauto.
  Qed.
  Lemma names_id s e t : names s e -> id_new_from_str s t None = Some (zero_slot e t).
  Proof.
    intros (b & H). unfold id_new_from_str. rewrite H.
    assert (F : firstn 15 (arr_l e ++ b) = arr_l e).
    { pose proof (arr_len e) as X. rewrite firstn_app, X, Nat.sub_diag, firstn_O, app_nil_r. apply firstn_all2. lia. }
    rewrite F. assert (A : arr_of 15 (arr_l e) = Some e) by (apply arr_of_some; reflexivity). rewrite A. reflexivity.
  Qed.
  Lemma id_names s e t i : id_new_from_str s t None = Some i -> i = zero_slot e t -> names s e.
  Proof.
    intros H ->. unfold id_new_from_str in H. destruct (hex_decode s) as [b|] eqn:D; [|discriminate].
    destruct (arr_of 15 (firstn 15 b)) as [a|] eqn:A; [|discriminate]. injection H as ->. apply arr_of_some in A.
    exists (skipn 15 b). rewrite A, firstn_skipn. exact D.
  Qed.
  Lemma signed_ok {E} sk t : tx_public t = Some (ed_public sk) -> @signed C E sk t = Ok (mk_stx t (ed_sign sk (tx_bytes t))).
  Proof.
    intros P. unfold signed. assert (S : sign sk t = Ok (mk_stx t (ed_sign sk (tx_bytes t)))).
    { apply sign_ok. split; [reflexivity|]. intros p Q. congruence. }
    rewrite S. reflexivity.
  Qed.
End Facts.
