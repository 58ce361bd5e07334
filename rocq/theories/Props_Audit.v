(** * Props_Audit: C40, C62 (the end-to-end verification command). *)
From Verif Require Import Base BaseFacts Hex HexFacts Utf8 Cbor Ident BuildId IdentFacts Crypto Types Serde Store
  SpecStore StoreFacts Prost Validate ValidateFacts SpecValid ValidFacts SpecHist HistFacts
  Exonum SpecLedger LedgerFacts Api ApiFacts Audit SpecAudit AuditFacts Toy Scene Props_Mix Props_Vote Props_Ledger.
From Coq Require Strings.String.
Import String.StringSyntax.
Open Scope list_scope.

Lemma starts_with_head a b c p : length p <= length a -> starts_with (a ++ b) p = starts_with (a ++ c) p.
Proof.
  revert a. induction p as [|y p IH]; intros a H; [destruct (a ++ b), (a ++ c); reflexivity|]. destruct a as [|x a]; [cbn in H; lia|].
  cbn [starts_with app]. rewrite (IH a) by (cbn [length] in H; lia). reflexivity.
Qed.
Lemma ascii_valid p : (forall b, In b p -> (u8v b < 128)%N) -> utf8_valid p = true.
Proof.
  induction p as [|b p IH]; intros H; [reflexivity|]. cbn [utf8_valid].
  assert (B : Utf8.in_range 0 127 b = true).
  { unfold Utf8.in_range. pose proof (H b (or_introl eq_refl)). apply andb_true_iff. split; apply N.leb_le; lia. }
  rewrite B. apply IH. intros c Hc. apply H. right. exact Hc.
Qed.
Lemma In_firstn {A} n (l : list A) x : In x (firstn n l) -> In x l.
Proof. revert l. induction n as [|n IH]; intros [|y l]; cbn; auto; [intros []|]. intros [->|H]; auto. Qed.

(** the elections whose printed identifier has these fifteen characters *)
Definition shares_prefix (e : Identifier) (a : arr 15) : bool :=
  starts_with (hex_encode (arr_l a)) (firstn 15 (id_to_string e)).

Section Props.
  Context {C : Crypto}.

  (** ** C40 *)
  Theorem C40_orderly_replay_partial :
    forall dbg l E, history dbg l -> orderly E l -> (exists x, In x l /\ mine E x) ->
    exists m, audit dbg (filter (fun x => E (id_election (s_id x))) (stored l)) = Ok m
      /\ forall i x, ms_get m i = Some x <-> In x l /\ mine E x /\ s_id x = i.
  Proof.
    intros dbg l E H O X. exists (ms_from (replayed l E)). split; [exact (audit_ok dbg l E H O X)|].
    intros i x. change (filter _ (stored l)) with (replayed l E).
    assert (R : stored (replayed l E) = replayed l E).
    { apply asc_ext; [apply stored_asc|exact (replayed_asc l E)|]. intros y.
      apply stored_in, asc_nodup, replayed_asc. }
    pose proof (replayed_in dbg l E H x) as I. rewrite <- R in I.
    pose proof (ms_contents_in (ms_from (replayed l E))) as K. unfold stored in I.
    split.
    - intros G. assert (Ei : s_id x = i).
      { rewrite ms_get_from in G. apply last_set_id in G. tauto. }
      subst i. apply K in G; [|apply ms_wf_from]. tauto.
    - intros (A & B & <-). apply K; [apply ms_wf_from|]. apply I. auto.
  Qed.

  Lemma prefix_of_election i e :
    starts_with (id_to_string i) (firstn 15 (id_to_string e)) = shares_prefix e (id_election i).
  Proof.
    unfold shares_prefix, id_to_string at 1, id_to_bytes. rewrite hex_encode_app.
    rewrite <- (app_nil_r (hex_encode (arr_l (id_election i)))) at 2.
    apply starts_with_head. rewrite firstn_length, hex_encode_length, arr_len. lia.
  Qed.
  Lemma listed_decoded (L : Ledger) p l : honest_ledger L ->
    Forall2 (fun kv x => carries (snd kv) x) (filter (fun kv => starts_with (fst kv) p) L) l ->
    l = filter (fun x => starts_with (id_to_string (s_id x)) p) (decoded L).
  Proof.
    revert l. induction L as [|[k e] L IH]; intros l H F; [inversion F; reflexivity|].
    assert (H' : honest_ledger L) by (intros k' e' X; apply H; right; exact X).
    destruct (H k e (or_introl eq_refl)) as (x & D & ->). rewrite (decoded_cons _ _ _ _ D).
    cbn [filter fst] in F |- *. destruct (starts_with (id_to_string (s_id x)) p).
    - inversion F as [|? y ? l' D' F']; subst. cbn [snd] in D'. unfold carries in *.
      assert (y = x) as -> by congruence. f_equal. apply IH; auto.
    - apply IH; auto.
  Qed.
  (** the whole command, against the listing of a node: fifteen digits of the identifier are enough *)
  Definition abbreviates (s : rstring) (e : Identifier) : Prop :=
    15 <= length (sv s) /\ exists rest, id_to_string e = sv s ++ rest.
  Lemma abbrev_full (s : rstring) e : sv s = id_to_string e -> abbreviates s e.
  Proof. intros H. split; [rewrite H, id_to_string_length; lia|]. exists []. rewrite app_nil_r. auto. Qed.
  Lemma command_is_audit dbg envs e (s : rstring) : Forall honest envs -> abbreviates s e ->
    command_e2e dbg (run dbg [] envs) s
    = audit dbg (filter (fun x => shares_prefix e (id_election (s_id x))) (stored (accepted dbg [] envs))).
  Proof.
    intros Hon Hs. destruct (honest_run0 dbg envs Hon) as (Hl & HL & D & W).
    destruct Hs as (Len & rest & Hs).
    unfold command_e2e. replace (length (sv s) <? 15) with false by (symmetry; apply Nat.ltb_ge; lia). cbn [fail_if bind].
    assert (B : is_char_boundary (sv s) 15 = true).
    { unfold is_char_boundary. destruct (nth_error (sv s) 15) as [b|] eqn:N.
      - apply nth_error_In in N. assert (N' : In b (id_to_string e)) by (rewrite Hs; apply in_or_app; auto).
        apply id_string_digit in N'. unfold cont, Utf8.in_range.
        destruct (128 <=? u8v b)%N eqn:K; [apply N.leb_le in K; lia|reflexivity].
      - apply nth_error_None in N. apply Nat.eqb_eq. lia. }
    rewrite B. cbn [bind].
    replace (firstn 15 (sv s)) with (firstn 15 (id_to_string e))
      by (rewrite Hs, firstn_app; replace (15 - length (sv s)) with 0 by lia; cbn [firstn]; apply app_nil_r).
    destruct (sub_of utf8_valid (firstn 15 (id_to_string e))) as [p|] eqn:P.
    2:{ exfalso. assert (U : utf8_valid (firstn 15 (id_to_string e)) = true).
        { apply ascii_valid. intros b Hb. apply In_firstn, id_string_digit in Hb. lia. }
        assert (Q : sub_of utf8_valid (firstn 15 (id_to_string e)) = Some (mk_sub _ U)) by (apply sub_of_some; reflexivity).
        congruence. }
    apply sub_of_some in P.
    destruct (get_all_prefix (run dbg [] envs) p W) as (l & G & F).
    1:{ intros k en X. destruct (HL _ _ X) as (y & _ & ->). eauto. }
    
    apply (listed_decoded _ _ _ HL) in F. rewrite D, P in F.
    assert (F' : l = filter (fun x => shares_prefix e (id_election (s_id x))) (stored (accepted dbg [] envs))).
    { rewrite F. apply filter_ext. intros y. apply prefix_of_election. }
    rewrite <- F'. exact (f_equal (fun g => match g with Ok txs => audit dbg txs | Err _ => Panic PUnwrap | Panic p => Panic p end) G).
  Qed.
  Theorem C40_command_partial :
    forall dbg envs e (s : rstring), Forall honest envs -> abbreviates s e ->
    orderly (shares_prefix e) (accepted dbg [] envs) ->
    (exists x, In x (accepted dbg [] envs) /\ id_election (s_id x) = id_election e) ->
    exists m, command_e2e dbg (run dbg [] envs) s = Ok m
      /\ forall i x, ms_get m i = Some x <->
           In x (accepted dbg [] envs) /\ starts_with (id_to_string i) (firstn 15 (id_to_string e)) = true /\ s_id x = i.
  Proof.
    intros dbg envs e s Hon Hs O (x & Hx & Ex). destruct (honest_run0 dbg envs Hon) as (Hl & HL & D & W).
    assert (Px : mine (shares_prefix e) x).
    { unfold mine. rewrite Ex, <- prefix_of_election. apply starts_with_spec.
      exists (skipn 15 (id_to_string e)). symmetry. apply firstn_skipn. }
    destruct (C40_orderly_replay_partial dbg _ (shares_prefix e) Hl O) as (m & A & K); [eauto|].
    exists m. split; [rewrite (command_is_audit dbg envs e s Hon Hs); exact A|]. intros i y. rewrite K. unfold mine. rewrite prefix_of_election.
    split; intros (X & Y & <-); auto.
  Qed.

  Theorem C40_short_partial :
    forall dbg L (s : rstring), length (sv s) < 15 -> command_e2e dbg L s = Err BadElectionId.
  Proof. intros dbg L s H. unfold command_e2e. apply Nat.ltb_lt in H. rewrite H. reflexivity. Qed.

  (** ** C62 *)
  Lemma audit_from_history dbg l : forall done m, history dbg done -> NoDup (map s_id (done ++ l)) ->
    audit_from dbg (ms_from done) l = Ok m -> history dbg (done ++ l) /\ m = ms_from (done ++ l).
  Proof.
    induction l as [|x l IH]; intros done m H N A.
    - rewrite app_nil_r. injection A as <-. auto.
    - cbn [audit_from] in A.
      destruct (validate dbg (ms_store (ms_from done)) x) as [[]| |] eqn:V; try discriminate. cbn [map_err bind] in A.
      replace (done ++ x :: l) with ((done ++ [x]) ++ l) in * by (rewrite <- app_assoc; reflexivity).
      apply IH; auto.
      + constructor; auto. rewrite <- app_assoc, map_app in N. intros y Hy E. cbn [app map] in N.
        apply NoDup_remove_2 in N. apply N, in_or_app. left. rewrite <- E. apply in_map, Hy.
      + unfold ms_from in *. rewrite fold_left_app. exact A.
  Qed.
  Theorem C62_audited_is_history_partial :
    forall dbg txs m, NoDup (map s_id txs) -> audit dbg txs = Ok m -> history dbg txs.
  Proof.
    intros dbg txs m N A. unfold audit in A. destruct txs as [|x l]; [discriminate|].
    destruct (negb _); [discriminate|]. cbn [fail_if bind] in A.
    apply (audit_from_history dbg (x :: l) [] m); auto. constructor.
  Qed.
  (** with distinct identifiers, the replayed store has every listed transaction *)
  Theorem C62_audited_store_partial :
    forall dbg txs m, NoDup (map s_id txs) -> audit dbg txs = Ok m ->
    forall i x, ms_get m i = Some x <-> In x txs /\ s_id x = i.
  Proof.
    intros dbg txs m N A i x. unfold audit in A. destruct txs as [|y l]; [discriminate|].
    destruct (negb _); [discriminate|]. cbn [fail_if bind] in A.
    apply (audit_from_history dbg (y :: l) [] m) in A as [_ ->]; auto; [|constructor].
    cbn [app]. rewrite ms_get_from. split.
    - intros G. apply last_set_id in G. tauto.
    - intros [I <-]. apply last_set_nodup; auto.
  Qed.
End Props.

(** ** Examples and counterexamples *)
#[local] Existing Instance Toy.
Definition only (a b : arr 15) : bool := bytes_eqb (arr_l a) (arr_l b).
Definition A11 : arr 15 := arr_rep x11 15.

(** deciding [orderly] on a concrete list *)
Section Decide.
  Context (E : arr 15 -> bool).
  Definition mineb (x : STx) : bool := E (id_election (s_id x)).
  Definition sameb (x y : STx) : bool := bytes_eqb (arr_l (id_election (s_id x))) (arr_l (id_election (s_id y))).
  Definition later_ok (x y : STx) : bool :=
    negb (mineb x && sameb x y
          && ((match s_type x with TEncryptionKey | TDecryption => true | _ => false end && tt_eqb (s_type y) TKeyGenPublicKey)
              || match s_tx x with
                 | XMix m => match mx_prev m with None => tt_eqb (s_type y) TVote | Some _ => false end
                 | _ => false end)).
  Definition votes_ok (x y : STx) : bool :=
    match s_tx x, s_tx y with
    | XVote v, XVote w => negb (bytes_eqb (firstn 10 (arr_l (sv (vt_key v)))) (firstn 10 (arr_l (sv (vt_key w)))))
    | _, _ => true
    end.
  Definition one_ok (x : STx) : bool :=
    negb (mineb x) ||
    (bytes_eqb (arr_l (id_election (s_id x))) (arr_l (id_election (tx_election (s_tx x))))
     && match s_tx x with
        | XPartial t => bytes_eqb (arr_l (id_election (pd_upstream t))) (arr_l (id_election (pd_election t)))
        | XDecryption t => bytes_eqb (arr_l (id_election (dc_upstream t))) (arr_l (id_election (dc_election t)))
        | _ => true
        end).
  Fixpoint orderlyb (l : list STx) : bool :=
    match l with [] => true | x :: l' => one_ok x && forallb (later_ok x) l' && forallb (votes_ok x) l' && orderlyb l' end.
  Lemma orderlyb_in l x : orderlyb l = true -> In x l -> one_ok x = true.
  Proof.
    induction l as [|y l IH]; [intros _ []|]. cbn [orderlyb]. rewrite !andb_true_iff. intros (((A & _) & _) & B) [<-|H]; auto.
  Qed.
  Lemma orderlyb_later l p x q y : orderlyb l = true -> l = p ++ x :: q -> In y q -> later_ok x y = true /\ votes_ok x y = true.
  Proof.
    intros H -> Hy. induction p as [|z p IH]; cbn [app orderlyb] in H; rewrite !andb_true_iff in H;
      destruct H as (((_ & A) & B) & D); [|auto]. rewrite forallb_forall in A, B. auto.
  Qed.
  Lemma arr_of_eqb {n} (a b : arr n) : bytes_eqb (arr_l a) (arr_l b) = true <-> a = b.
  Proof. rewrite bytes_eqb_eq. split; [apply arr_ext|congruence]. Qed.
  Lemma orderlyb_ok l : orderlyb l = true -> orderly E l.
  Proof.
    intros H. constructor.
    - intros x Hx M. apply (orderlyb_in l x H) in Hx. unfold one_ok, mineb in Hx. rewrite M in Hx. cbn [negb orb] in Hx.
      apply andb_true_iff in Hx as [Hx _]. apply arr_of_eqb, Hx.
    - intros x t Hx M Tx. apply (orderlyb_in l x H) in Hx. unfold one_ok, mineb in Hx. rewrite M, Tx in Hx. cbn [negb orb] in Hx.
      apply andb_true_iff in Hx as [_ Hx]. apply arr_of_eqb, Hx.
    - intros x t Hx M Tx. apply (orderlyb_in l x H) in Hx. unfold one_ok, mineb in Hx. rewrite M, Tx in Hx. cbn [negb orb] in Hx.
      apply andb_true_iff in Hx as [_ Hx]. apply arr_of_eqb, Hx.
    - intros p x q y El Hy M T1 T2 S. destruct (orderlyb_later _ _ _ _ _ H El Hy) as [K _].
      unfold later_ok, mineb, sameb in K. rewrite M, (proj2 (arr_of_eqb _ _) S), T2 in K.
      destruct T1 as [T1|T1]; rewrite T1 in K; discriminate.
    - intros p x q y m El Hy M T1 T2 T3 S. destruct (orderlyb_later _ _ _ _ _ H El Hy) as [K _].
      unfold later_ok, mineb, sameb in K. rewrite M, (proj2 (arr_of_eqb _ _) S), T1, T2, T3 in K.
      cbn [tt_eqb] in K. rewrite orb_true_r in K. discriminate.
    - assert (G : forall p q x y v w, l = p ++ x :: q -> In y q -> s_tx x = XVote v -> s_tx y = XVote w ->
        firstn 10 (arr_l (sv (vt_key v))) <> firstn 10 (arr_l (sv (vt_key w)))).
      { intros p q x y v w El Hy Tx Ty K. destruct (orderlyb_later _ _ _ _ _ H El Hy) as [_ V].
        unfold votes_ok in V. rewrite Tx, Ty in V. apply (proj2 (bytes_eqb_eq _ _)) in K. rewrite K in V. discriminate. }
      intros x y v w Hx Hy M S Tx Ty K. apply in_split in Hx as (p & q & El).
      assert (In y p \/ x = y \/ In y q) as [D|[D|D]].
      { rewrite El in Hy. apply in_app_or in Hy as [Y|[Y|Y]]; auto. }
      + apply in_split in D as (p1 & p2 & ->). exfalso. rewrite <- app_assoc in El. cbn [app] in El.
        apply (G p1 (p2 ++ x :: q) y x w v El); auto. apply in_or_app. right. left. reflexivity.
      + exact D.
      + exfalso. apply (G p q x y v w El); auto.
  Qed.
End Decide.

(** both scenes are orderly, and their replay ends with every transaction *)
Example C40_example :
  history true scene_mix /\ orderly (only A11) scene_mix /\ history true scene_plain /\ orderly (only A11) scene_plain
  /\ (exists x, In x scene_mix /\ mine (only A11) x) /\ (exists x, In x scene_plain /\ mine (only A11) x).
Proof.
  split; [apply run_history; vm_compute; reflexivity|]. split; [apply orderlyb_ok; vm_compute; reflexivity|].
  split; [apply run_history; vm_compute; reflexivity|]. split; [apply orderlyb_ok; vm_compute; reflexivity|].
  split; eexists; (split; [left; reflexivity|vm_compute; reflexivity]).
Qed.
Example C40_command_example :
  is_ok (command_e2e true (led scene_mix) (s1 (id_to_string EID))) = true
  /\ orderly (shares_prefix EID) (accepted true [] (map into_env scene_mix)).
Proof.
  assert (F : is_ok (command_e2e true (led scene_mix) (s1 (id_to_string EID))) = true
    /\ orderlyb (shares_prefix EID) (accepted true [] (map into_env scene_mix)) = true) by (vm_compute; split; reflexivity).
  destruct F as [A B]. split; [exact A|]. apply orderlyb_ok, B.
Qed.

Example C40_command_short :
  abbreviates (s1 (firstn 15 (id_to_string EID))) EID
  /\ is_ok (command_e2e true (led (setup None)) (s1 (firstn 15 (id_to_string EID)))) = true
  /\ command_e2e true (led (setup None)) (s1 (firstn 14 (id_to_string EID))) = Err BadElectionId.
Proof.
  split; [|split; [vm_compute; reflexivity|apply C40_short_partial; cbn; repeat constructor]]. split; [vm_compute; repeat constructor|].
  exists (skipn 15 (id_to_string EID)). vm_compute. reflexivity.
Qed.

(** a trustee adds a second public key, under a free identifier, after the encryption key *)
Definition late_key : STx :=
  sgn x0a (XPublicKey (mk_pubkey (pubkey_build_id EID x07) EID x01 (pk_of x0a) egk (proof_of x01))).
Definition audit_error (r : res AuditError MemStore) : option AuditError := match r with Err a => Some a | _ => None end.
Definition honest_all (l : list STx) : bool :=
  forallb (fun e => match stx_from_bytes (en_data e) with
                    | Ok x => bytes_eqb (sv (en_id e)) (id_to_string (s_id x)) | _ => true end) (map into_env l).
Lemma honest_all_ok l : honest_all l = true -> Forall honest (map into_env l).
Proof.
  intros H. apply Forall_forall. intros e He. apply honest_by. revert e He. apply (proj1 (forallb_forall _ _)), H.
Qed.
(** all of [l] is recorded and the audit stops at [i] *)
Definition fails_at (l : list STx) (i : Identifier) (p : VError -> bool) : bool :=
  honest_all l && Nat.eqb (length (led l)) (length l)
  && match command_e2e true (led l) (s1 (id_to_string EID)) with Err (Invalid j e) => id_eqb j i && p e | _ => false end.
Lemma fails_at_ok l i p : fails_at l i p = true -> Forall honest (map into_env l) /\ length (led l) = length l
  /\ exists e, command_e2e true (led l) (s1 (id_to_string EID)) = Err (Invalid i e) /\ p e = true.
Proof.
  unfold fails_at. rewrite !andb_true_iff. intros [[A B] D]. split; [apply honest_all_ok, A|]. split; [apply Nat.eqb_eq, B|].
  destruct (command_e2e _ _ _) as [|[| | |j e]|]; try discriminate D. apply andb_prop in D as [D P]. apply id_eqb_eq in D as ->. eauto.
Qed.
Definition any_error (e : VError) : bool := true.
Definition few_keys (e : VError) : bool := match e with WrongNumberOfPublicKeyTransactions => true | _ => false end.
Theorem C40_replay_refuted :
  exists l e i, Forall honest (map into_env l) /\ length (led l) = length l
    /\ (forall x, In x l -> id_election (s_id x) = id_election EID)
    /\ command_e2e true (led l) e = Err (Invalid i WrongNumberOfPublicKeyTransactions).
Proof.
  exists (setup None ++ [late_key]), (s1 (id_to_string EID)), (enckey_build_id EID).
  assert (F : fails_at (setup None ++ [late_key]) (enckey_build_id EID) few_keys = true
    /\ forallb (fun x => bytes_eqb (arr_l (id_election (s_id x))) (arr_l (id_election EID))) (setup None ++ [late_key]) = true)
    by (vm_compute; split; reflexivity).
  destruct F as (A & D). destruct (fails_at_ok _ _ _ A) as (H & L & e & E & P).
  destruct e; try discriminate P. clear A P.
  split; [exact H|]. split; [exact L|]. split; [|exact E].
  intros x Hx. apply arr_of_eqb. revert x Hx. apply (proj1 (forallb_forall _ _)), D.
Qed.

(** other accepted histories whose replay fails: a vote after a first mix; a transaction of another election's
    authority in a slot of this election (its election is not replayed at all) *)
Definition late_vote_l : list STx := setup (Some mixcfg) ++ [vote x20 (lit "yes"); early_mix; vote x21 (lit "no")].
Example C40_late_vote :
  Forall honest (map into_env late_vote_l) /\ length (led late_vote_l) = length late_vote_l
  /\ exists e, command_e2e true (led late_vote_l) (s1 (id_to_string EID)) = Err (Invalid (s_id early_mix) e).
Proof.
  destruct (fails_at_ok late_vote_l (s_id early_mix) any_error) as (A & B & e & D & _); [vm_compute; reflexivity|]. eauto.
Qed.
Definition foreign_end : STx := sgn x02 (XVotingEnd (mk_votingend (votingend_build_id EID) EID2 (pk_of x02))).
Definition foreign_l : list STx := setup None ++ [electionB_tx;
    sgn x0c (XPublicKey (mk_pubkey (pubkey_build_id EID2 x01) EID2 x01 (pk_of x0c) evil_key (proof_of x01)));
    sgn x02 (XEncryptionKey (mk_enckey (enckey_build_id EID2) EID2 (pk_of x02) evil_key)); foreign_end].
Example C40_foreign :
  Forall honest (map into_env foreign_l) /\ length (led foreign_l) = length foreign_l
  /\ exists e, command_e2e true (led foreign_l) (s1 (id_to_string EID)) = Err (Invalid (votingend_build_id EID) e).
Proof.
  destruct (fails_at_ok foreign_l (votingend_build_id EID) any_error) as (A & B & e & D & _); [vm_compute; reflexivity|]. eauto.
Qed.

(** C62: the replay does not notice that an identifier is listed twice *)
Definition EL_other : STx := sgn x02 (XElection (mk_election EID (pk_of x02) [] x00 [] x00 None [] [] no_props)).
Theorem C62_audited_is_history_refuted :
  exists txs m x, audit true txs = Ok m /\ In x txs /\ ms_get m (s_id x) <> Some x /\ ~ history true txs.
Proof.
  exists [EL; EL_other], (ms_from [EL; EL_other]), EL. split; [|split; [left; reflexivity|split]].
  - assert (V1 : validate true (ms_store ms_empty) EL = Ok tt) by (vm_compute; reflexivity).
    assert (V2 : validate true (ms_store (ms_set ms_empty EL)) EL_other = Ok tt) by (vm_compute; reflexivity).
    unfold audit. change (s_type EL) with TElection. cbn [tt_eqb negb fail_if bind audit_from].
    rewrite V1. cbn [map_err bind]. rewrite V2. reflexivity.
  - intros K. apply (f_equal (fun o => match o with Some x => bytes_eqb (tx_bytes (s_tx x)) (tx_bytes (s_tx EL)) | None => false end)) in K. vm_compute in K. discriminate.
  - intros H. apply hist_nodup in H. cbn [map] in H. inversion H as [|? ? N _]; subst. apply N. left.
    vm_compute. reflexivity.
Qed.
Example C62_example : is_ok (audit true scene_mix) = true /\ NoDup (map s_id scene_mix).
Proof.
  split; [vm_compute; reflexivity|]. apply (hist_nodup true). apply run_history. vm_compute. reflexivity.
Qed.

Print Assumptions C40_orderly_replay_partial.
Print Assumptions C40_command_partial.
Print Assumptions C40_short_partial.
Print Assumptions C40_replay_refuted.
Print Assumptions C62_audited_is_history_partial.
Print Assumptions C62_audited_store_partial.
Print Assumptions C62_audited_is_history_refuted.
