(** * LedgerFacts: invariants of the Exonum ledger; refinement to histories. *)
From Verif Require Import Base BaseFacts Hex HexFacts Utf8 Cbor Ident BuildId IdentFacts Crypto Types Serde Store
  SpecStore StoreFacts Prost Validate ValidateFacts SpecHist HistFacts Exonum SpecLedger.
From Coq Require Import Sorting.Sorted.
Open Scope list_scope.

Section Facts.
  Context {C : Crypto}.

  Record lwf (L : Ledger) : Prop := {
    lw_sorted : bt_sorted L;
    lw_entry : forall k e, In (k, e) L -> k = sv (en_id e) /\ exists x, carries e x
  }.
  Lemma lwf_empty : lwf [].
  Proof. split; [constructor|]. intros k e []. Qed.

  Lemma store_ok dbg L tx L' :
    verify_and_store dbg L tx = Ok L' <->
    bt_get L (sv (en_id tx)) = None
    /\ (exists x, carries tx x /\ validate dbg (ex_store L) x = Ok tt)
    /\ L' = bt_insert L (sv (en_id tx)) tx.
  Proof.
    unfold verify_and_store, carries. destruct (bt_get L (sv (en_id tx))) eqn:G; cbn [fail_if bind].
    - split; [discriminate|]. intros (A & _). discriminate.
    - destruct (stx_from_bytes (en_data tx)) as [x| |] eqn:D; cbn [map_err bind].
      + destruct (validate dbg (ex_store L) x) as [[]| |] eqn:V; cbn [map_err bind]; split.
        * intros E. injection E as <-. split; [reflexivity|]. split; [|reflexivity]. exists x. auto.
        * intros (_ & _ & ->). reflexivity.
        * discriminate.
        * intros (_ & (y & E & W) & _). injection E as <-. congruence.
        * discriminate.
        * intros (_ & (y & E & W) & _). injection E as <-. congruence.
      + split; [discriminate|]. intros (_ & (y & E & _) & _). discriminate.
      + split; [discriminate|]. intros (_ & (y & E & _) & _). discriminate.
  Qed.

  Lemma lwf_store dbg L tx L' : lwf L -> verify_and_store dbg L tx = Ok L' -> lwf L'.
  Proof.
    intros [S E] V. apply store_ok in V as (_ & (x & D & _) & ->). split.
    - apply bt_insert_sorted, S.
    - intros k e H. apply bt_insert_in in H as [H|H]; [|apply E, H]. injection H as -> ->. eauto.
  Qed.
  Lemma lwf_submit dbg L tx : lwf L -> lwf (submit dbg L tx).
  Proof. intros H. unfold submit. destruct (verify_and_store dbg L tx) eqn:V; auto. eapply lwf_store; eauto. Qed.
  Lemma reach_lwf dbg L : reachable dbg L -> lwf L.
  Proof. induction 1; [apply lwf_empty|apply lwf_submit; assumption]. Qed.
  Lemma run_reach dbg l : forall L, reachable dbg L -> reachable dbg (run dbg L l).
  Proof. induction l as [|e l IH]; intros L H; [exact H|]. cbn [run fold_left]. apply IH. constructor. exact H. Qed.
  Lemma reach_run dbg L : reachable dbg L -> exists l, L = run dbg [] l.
  Proof.
    induction 1 as [|L e _ (l & ->)]; [exists []; reflexivity|]. exists (l ++ [e]). unfold run.
    rewrite fold_left_app. reflexivity.
  Qed.

  Lemma submit_incl dbg L tx p : In p L -> In p (submit dbg L tx).
  Proof.
    intros H. unfold submit. destruct (verify_and_store dbg L tx) eqn:V; auto.
    apply store_ok in V as (G & _ & ->). apply bt_insert_incl; assumption.
  Qed.
  Lemma run_incl dbg l p : forall L, In p L -> In p (run dbg L l).
  Proof. induction l as [|e l IH]; intros L H; [exact H|]. apply (IH (submit dbg L e)), submit_incl, H. Qed.

  (** ** reading *)
  Lemma decode_carries e x : carries e x -> decode_ok e = Ok (Some x).
  Proof. unfold carries, decode_ok. intros ->. reflexivity. Qed.
  Lemma ex_get_some L i e x :
    lwf L -> In (id_to_string i, e) L -> carries e x -> ex_get L i = Ok (Some x).
  Proof.
    intros W H D. unfold ex_get. apply (bt_get_in _ _ _ (lw_sorted _ W)) in H. rewrite H. apply decode_carries, D.
  Qed.

  (** the payloads in key order *)
  Definition payload (e : Env) : list STx := match stx_from_bytes (en_data e) with Ok x => [x] | _ => [] end.
  Definition decoded (L : Ledger) : list STx := flat_map (fun p => payload (snd p)) L.
  Lemma payload_carries e x : carries e x -> payload e = [x].
  Proof. unfold carries, payload. intros ->. reflexivity. Qed.

  (** honest ledgers: every key is the printed identifier of the payload *)
  Definition honest_ledger (L : Ledger) : Prop :=
    forall k e, In (k, e) L -> exists x, carries e x /\ k = id_to_string (s_id x).

  Lemma decoded_in L x : lwf L -> honest_ledger L ->
    (In x (decoded L) <-> exists e, In (id_to_string (s_id x), e) L /\ carries e x).
  Proof.
    intros W H. unfold decoded. rewrite in_flat_map. split.
    - intros ([k e] & A & B). cbn [snd] in B. destruct (H _ _ A) as (y & D & ->).
      rewrite (payload_carries _ _ D) in B. destruct B as [<-|[]]. eauto.
    - intros (e & A & D). exists (id_to_string (s_id x), e). split; [exact A|]. cbn [snd].
      rewrite (payload_carries _ _ D). left. reflexivity.
  Qed.
  Lemma decoded_asc L : bt_sorted L -> honest_ledger L -> ascending (decoded L).
  Proof.
    induction L as [|[k e] L IH]; intros S H; [constructor|].
    inversion S as [|? ? S' F]; subst. assert (H' : honest_ledger L) by (intros k' e' X; apply H; right; exact X).
    destruct (H k e (or_introl eq_refl)) as (x & D & ->). unfold decoded. cbn [flat_map snd].
    rewrite (payload_carries _ _ D). cbn [app]. constructor; [apply IH; assumption|].
    apply Forall_forall. intros y Hy. unfold decoded in Hy. apply in_flat_map in Hy as ([k' e'] & A & B). cbn [snd] in B.
    destruct (H' _ _ A) as (z & D' & ->). rewrite (payload_carries _ _ D') in B. destruct B as [<-|[]].
    rewrite Forall_forall in F. specialize (F _ A). unfold key_lt in F. cbn [fst] in F.
    unfold id_lt. rewrite id_cmp_string. exact F.
  Qed.
  Lemma ex_get_entry L i : lwf L -> honest_ledger L -> ex_get L i = Ok (entry (decoded L) i).
  Proof.
    intros W H. unfold ex_get. destruct (bt_get L (id_to_string i)) as [e|] eqn:G.
    - apply (bt_get_in _ _ _ (lw_sorted _ W)) in G. destruct (H _ _ G) as (x & D & E).
      rewrite (decode_carries _ _ D). f_equal. symmetry. apply entry_in; [apply decoded_asc; [apply W|exact H]|].
      apply id_to_string_inj in E. subst i. split; [|reflexivity]. apply decoded_in; eauto.
    - f_equal. symmetry. apply entry_none. intros x Hx E. apply decoded_in in Hx as (e & A & _); auto.
      apply (bt_get_in _ _ _ (lw_sorted _ W)) in A. rewrite E in A. congruence.
  Qed.
  Lemma filter_all {A} (f : A -> bool) l : (forall x, In x l -> f x = true) -> filter f l = l.
  Proof.
    induction l as [|x l IH]; intros H; [reflexivity|]. cbn [filter]. rewrite (H x) by (left; reflexivity).
    f_equal. apply IH. intros y Hy. apply H. right. exact Hy.
  Qed.
  Lemma filter_nothing {A} (f : A -> bool) l : (forall x, In x l -> f x = false) -> filter f l = [].
  Proof.
    induction l as [|x l IH]; intros H; [reflexivity|]. cbn [filter]. rewrite (H x) by (left; reflexivity).
    apply IH. intros y Hy. apply H. right. exact Hy.
  Qed.
  Lemma decoded_cons k e x L : carries e x -> decoded ((k, e) :: L) = x :: decoded L.
  Proof. intros D. unfold decoded. cbn [flat_map]. cbn [snd]. rewrite (payload_carries _ _ D). reflexivity. Qed.
  Lemma collect_cons stop k e x L : carries e x -> collect_until stop ((k, e) :: L) =
    if bytes_ltb stop k then Ok [] else let! rest := collect_until stop L in Ok (x :: rest).
  Proof. intros D. cbn [collect_until]. rewrite (decode_carries _ _ D). reflexivity. Qed.
  Lemma collect_until_spec stop (L : Ledger) : bt_sorted L -> honest_ledger L ->
    collect_until stop L = Ok (filter (fun x => bytes_leb (id_to_string (s_id x)) stop) (decoded L)).
  Proof.
    induction L as [|[k e] L IH]; intros S H; [reflexivity|].
    inversion S as [|? ? S' F]; subst. assert (H' : honest_ledger L) by (intros k' e' X; apply H; right; exact X).
    destruct (H k e (or_introl eq_refl)) as (x & D & ->). pose proof (decoded_asc _ S H) as K.
    rewrite (collect_cons _ _ _ _ _ D). rewrite (decoded_cons _ _ _ _ D) in *.
    destruct (bytes_ltb stop (id_to_string (s_id x))) eqn:E.
    - f_equal. symmetry. apply filter_nothing. apply bytes_ltb_lt in E.
      assert (A : forall y, In y (x :: decoded L) -> ble (id_to_string (s_id x)) (id_to_string (s_id y))).
      { intros y [<-|Hy]; [apply ble_refl|].
        apply (asc_head _ _ _ K) in Hy. unfold id_lt in Hy. rewrite id_cmp_string in Hy. apply ble_alt. left. exact Hy. }
      intros y Hy. destruct (bytes_leb (id_to_string (s_id y)) stop) eqn:B; [|reflexivity]. exfalso.
      apply bytes_leb_le in B. apply A in Hy. apply (blt_irrefl stop).
      eapply blt_le_trans; [exact E|]. eapply ble_trans; eassumption.
    - rewrite IH by assumption. cbn [bind filter].
      assert (B : bytes_leb (id_to_string (s_id x)) stop = true).
      { apply bytes_leb_le, not_blt. intros X. apply bytes_ltb_lt in X. congruence. }
      rewrite B. reflexivity.
  Qed.
  Lemma iter_from_honest L k : honest_ledger L -> honest_ledger (iter_from L k).
  Proof. intros H k' e X. apply filter_In in X as [X _]. apply H, X. Qed.
  Lemma ss_filter {A} (R : A -> A -> Prop) f l : StronglySorted R l -> StronglySorted R (filter f l).
  Proof.
    induction 1 as [|x l S IH F]; [constructor|]. cbn [filter]. destruct (f x); [|exact IH].
    constructor; [exact IH|]. apply Forall_forall. intros y Hy. apply filter_In in Hy as [Hy _].
    rewrite Forall_forall in F. auto.
  Qed.
  Lemma iter_from_sorted (L : Ledger) k : bt_sorted L -> bt_sorted (iter_from L k).
  Proof. apply ss_filter. Qed.
  Lemma decoded_iter L k : honest_ledger L ->
    decoded (iter_from L k) = filter (fun x => bytes_leb k (id_to_string (s_id x))) (decoded L).
  Proof.
    induction L as [|[k' e] L IH]; intros H; [reflexivity|].
    assert (H' : honest_ledger L) by (intros a b X; apply H; right; exact X). specialize (IH H').
    destruct (H k' e (or_introl eq_refl)) as (x & D & ->). unfold decoded, iter_from in *. cbn [filter fst flat_map snd].
    rewrite (payload_carries _ _ D). cbn [app filter]. destruct (bytes_leb k (id_to_string (s_id x))); cbn [flat_map snd].
    - rewrite (payload_carries _ _ D). cbn [app]. f_equal. exact IH.
    - exact IH.
  Qed.
  Lemma ex_range_between L a b : lwf L -> honest_ledger L -> ex_range L a b = Ok (between (decoded L) a b).
  Proof.
    intros W H. unfold ex_range. rewrite collect_until_spec.
    2: apply iter_from_sorted, W. 2: apply iter_from_honest, H.
    f_equal. rewrite decoded_iter by exact H. unfold between. clear W H. induction (decoded L) as [|x l IH]; [reflexivity|].
    cbn [filter]. rewrite !id_cmp_string. unfold bytes_leb in *. destruct (lex (id_to_string a) (id_to_string (s_id x))); cbn [filter andb];
      rewrite ?IH; reflexivity.
  Qed.
  Lemma honest_holds L : lwf L -> honest_ledger L -> holds (ex_store L) (decoded L).
  Proof.
    intros W H. split.
    - apply decoded_asc; [apply W|exact H].
    - intros i. apply ex_get_entry; assumption.
    - intros a b _. apply ex_range_between; assumption.
  Qed.

  (** ** two stores with the same content give the same verdict *)
  Definition same_reads (s s' : Store) : Prop :=
    (forall i, st_get s i = st_get s' i) /\ (forall a b, id_le a b -> st_range s a b = st_range s' a b).
  Lemma holds_same s s' L : holds s L -> holds s' L -> same_reads s s'.
  Proof.
    intros A B. split.
    - intros i. rewrite (h_get _ _ A), (h_get _ _ B). reflexivity.
    - intros a b H. rewrite (h_range _ _ A), (h_range _ _ B) by exact H. reflexivity.
  Qed.
  Lemma bind_ext {E A B} (m : res E A) (f g : A -> res E B) : (forall a, f a = g a) -> bind m f = bind m g.
  Proof. intros H. destruct m; cbn [bind]; auto. Qed.
  Lemma map_res_ext {E A B} (f g : A -> res E B) l : (forall a, f a = g a) -> map_res f l = map_res g l.
  Proof. intros H. induction l as [|x l IH]; [reflexivity|]. cbn [map_res]. rewrite H, IH. reflexivity. Qed.
  Lemma typed_same {A} (proj : Tx -> option A) t s s' i :
    same_reads s s' -> get_typed proj t s i = get_typed proj t s' i.
  Proof. intros [G _]. unfold get_typed. rewrite G. reflexivity. Qed.
  Lemma multiple_same s s' e t : same_reads s s' -> get_multiple s e t = get_multiple s' e t.
  Proof.
    intros [_ R]. unfold get_multiple. rewrite id_start_none, id_end_none. cbn [bind]. apply R, start_le_end.
  Qed.
  Lemma election_same s s' i : same_reads s s' -> election_of s i = election_of s' i.
  Proof. intros H. unfold election_of, get_election. rewrite (typed_same _ _ _ _ _ H). reflexivity. Qed.
  Lemma encrypted_same s s' up i c mc : same_reads s s' -> encrypted_vote s up i c mc = encrypted_vote s' up i c mc.
  Proof.
    intros H. unfold encrypted_vote, get_vote, get_mix. rewrite !(typed_same _ _ _ _ _ H). reflexivity.
  Qed.
  Lemma validate_same dbg s s' x : same_reads s s' -> validate dbg s x = validate dbg s' x.
  Proof.
    intros H. pose proof H as [G R]. unfold validate. apply bind_ext. intros _. apply bind_ext. intros _.
    destruct (s_tx x) as [t|t|t|t|t|t|t|t|t|t]; cbn [validate_tx].
    - reflexivity.
    - unfold validate_commitment. rewrite (election_same _ _ _ H). reflexivity.
    - unfold validate_share. rewrite (election_same _ _ _ H). reflexivity.
    - unfold validate_pubkey. rewrite (election_same _ _ _ H). reflexivity.
    - unfold validate_enckey. rewrite (election_same _ _ _ H), (multiple_same _ _ _ _ H). reflexivity.
    - unfold validate_vote. rewrite (election_same _ _ _ H). apply bind_ext. intros _. apply bind_ext. intros e.
      destruct (id_start (vt_election t) TVote (Some (firstn 10 (arr_l (sv (vt_key t)))))) as [a| |]; cbn [bind]; try reflexivity.
      rewrite (R a a (id_le_refl a)), !G. reflexivity.
    - unfold validate_votingend. rewrite (election_same _ _ _ H). reflexivity.
    - unfold validate_mix. rewrite (election_same _ _ _ H), !G.
      assert (M : mix_input dbg s t = mix_input dbg s' t).
      { unfold mix_input, mix_input_prev, mix_input_first. destruct (mx_prev t); [rewrite G; reflexivity|].
        rewrite id_start_none, id_end_none. cbn [bind]. rewrite (R _ _ (start_le_end _ _)). reflexivity. }
      rewrite M. reflexivity.
    - unfold validate_partial, get_keygen_public_key. rewrite (election_same _ _ _ H), G.
      apply bind_ext. intros e. apply bind_ext. intros tr. apply bind_ext. intros _. apply bind_ext. intros ve.
      apply bind_ext. intros _. rewrite (encrypted_same _ _ _ _ _ _ H), (typed_same _ _ _ _ _ H). reflexivity.
    - unfold validate_decryption. rewrite (election_same _ _ _ H), (multiple_same _ _ _ _ H).
      apply bind_ext. intros _. apply bind_ext. intros e. rewrite (encrypted_same _ _ _ _ _ _ H).
      apply bind_ext. intros cts. apply bind_ext. intros txs. apply bind_ext. intros pks.
      erewrite map_res_ext; [reflexivity|]. intros i. cbn beta. apply bind_ext. intros tr.
      unfold get_partial_decryption. rewrite (typed_same _ _ _ _ _ H). reflexivity.
  Qed.

  (** ** refinement: honest submissions build a history *)
  Lemma stored_snoc_entry l x i : fresh l (s_id x) ->
    entry (stored (l ++ [x])) i = if id_eqb (s_id x) i then Some x else entry (stored l) i.
  Proof.
    intros F. unfold stored. rewrite <- !ms_get_entry by apply ms_wf_from.
    unfold ms_from. rewrite fold_left_app. cbn [fold_left]. apply ms_get_set.
  Qed.
  Lemma same_content s s' L : holds s L -> holds s' L -> forall i, st_get s i = st_get s' i.
  Proof. intros A B. apply (holds_same _ _ _ A B). Qed.

  Lemma asc_entry_ext L M : ascending L -> ascending M -> (forall i, entry L i = entry M i) -> L = M.
  Proof.
    intros A B E. apply asc_ext; auto. intros x. split; intros H.
    - assert (X : entry L (s_id x) = Some x) by (apply entry_in; auto). rewrite E in X. apply entry_some_in in X. tauto.
    - assert (X : entry M (s_id x) = Some x) by (apply entry_in; auto). rewrite <- E in X. apply entry_some_in in X. tauto.
  Qed.
  Lemma honest_step dbg L tx x L' l :
    lwf L -> honest_ledger L -> honest tx -> carries tx x -> verify_and_store dbg L tx = Ok L' ->
    decoded L = stored l -> history dbg l ->
    history dbg (l ++ [x]) /\ honest_ledger L' /\ decoded L' = stored (l ++ [x]).
  Proof.
    intros W HL Ht D V E Hl. pose proof (lwf_store _ _ _ _ W V) as W'. apply store_ok in V as (G & (y & D' & V) & ->).
    assert (y = x) by (unfold carries in *; congruence). subst y.
    assert (HL' : honest_ledger (bt_insert L (sv (en_id tx)) tx)).
    { intros k e K. apply bt_insert_in in K as [K|K]; [|apply HL, K]. injection K as -> ->.
      exists x. split; [exact D|apply Ht, D]. }
    pose proof (honest_holds _ W HL) as HH. rewrite E in HH.
    assert (F : fresh l (s_id x)).
    { intros z Hz Ez. apply (hist_stored _ l z Hl) in Hz. rewrite <- E in Hz.
      apply decoded_in in Hz as (e & A & _); auto. apply (bt_get_in _ _ _ (lw_sorted _ W)) in A.
      rewrite Ez, <- (Ht x D) in A. congruence. }
    split; [|split; [exact HL'|]].
    - constructor; auto. rewrite <- V. apply validate_same. apply (holds_same _ _ (stored l)); [apply stored_holds|exact HH].
    - apply asc_entry_ext.
      + apply decoded_asc; [apply W'|exact HL'].
      + apply stored_asc.
      + intros i. rewrite stored_snoc_entry by exact F. rewrite <- E.
        assert (K : forall M, lwf M -> honest_ledger M -> entry (decoded M) i =
                    match bt_get M (id_to_string i) with Some e => hd_error (payload e) | None => None end).
        { intros M WM HM. pose proof (ex_get_entry M i WM HM) as X. unfold ex_get in X.
          destruct (bt_get M (id_to_string i)) as [e|] eqn:B; [|congruence].
          apply (bt_get_in _ _ _ (lw_sorted _ WM)) in B. destruct (HM _ _ B) as (z & Dz & _).
          rewrite (decode_carries _ _ Dz) in X. rewrite (payload_carries _ _ Dz). cbn [hd_error]. congruence. }
        rewrite (K _ W' HL'), (K _ W HL), bt_get_insert, (Ht x D).
        destruct (id_eqb (s_id x) i) eqn:Ei.
        * apply id_eqb_eq in Ei. subst i. rewrite bytes_eqb_refl, (payload_carries _ _ D). reflexivity.
        * destruct (bytes_eqb (id_to_string i) (id_to_string (s_id x))) eqn:Eb; [|reflexivity].
          apply bytes_eqb_eq, id_to_string_inj in Eb. subst i. rewrite id_eqb_refl in Ei. discriminate.
  Qed.

  Lemma honest_run dbg envs : Forall honest envs -> forall L l,
    lwf L -> honest_ledger L -> decoded L = stored l -> history dbg l ->
    history dbg (l ++ accepted dbg L envs) /\ honest_ledger (run dbg L envs)
    /\ decoded (run dbg L envs) = stored (l ++ accepted dbg L envs).
  Proof.
    induction 1 as [|e envs He _ IH]; intros L l W HL E Hl.
    - cbn [accepted run fold_left]. rewrite app_nil_r. auto.
    - cbn [accepted]. unfold run. cbn [fold_left]. unfold submit at 2 4. destruct (verify_and_store dbg L e) as [L'| |] eqn:V.
      + pose proof V as V'. apply store_ok in V' as (_ & (x & D & _) & _). pose proof D as D'. unfold carries in D'. rewrite D'.
        destruct (honest_step dbg L e x L' l W HL He D V E Hl) as (A & B & F).
        assert (K : (l ++ x :: accepted dbg L' envs) = (l ++ [x]) ++ accepted dbg L' envs) by (rewrite <- app_assoc; reflexivity).
        rewrite K. apply IH; auto. eapply lwf_store; eauto.
      + apply IH; auto.
      + apply IH; auto.
  Qed.
  Lemma honest_run0 dbg envs : Forall honest envs ->
    let L := run dbg [] envs in let l := accepted dbg [] envs in
    history dbg l /\ honest_ledger L /\ decoded L = stored l /\ lwf L.
  Proof.
    intros H. cbn zeta. destruct (honest_run dbg envs H [] []) as (A & B & D).
    - apply lwf_empty. - intros k e []. - reflexivity. - constructor.
    - split; [exact A|]. split; [exact B|]. split; [exact D|]. apply (reach_lwf dbg), run_reach. constructor.
  Qed.
End Facts.
