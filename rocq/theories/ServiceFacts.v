(** * ServiceFacts: when the commit hook does not panic; what it sends. *)
From Verif Require Import Base BaseFacts Hex HexFacts Utf8 Cbor Ident BuildId IdentFacts Crypto Types Serde Store SpecStore StoreFacts
  Prost Validate ValidateFacts SpecValid ValidFacts ValidFacts2 ValidFacts3 SpecHist HistFacts Exonum SpecLedger LedgerFacts
  SpecMix MixFacts SpecDecrypt DecryptFacts Trustee Tasks SpecTasks TasksFacts TasksFacts2 TasksFacts3 Service SpecService.
From Coq Require Import ZifyBool ZifyNat ZifyN.
Open Scope list_scope.

Lemma filter_same {A} (f g : A -> bool) l : (forall x, f x = g x) -> filter f l = filter g l.
Proof. intros E. induction l as [|x l IH]; [reflexivity|]. cbn [filter]. rewrite E, IH. reflexivity. Qed.

Section Facts.
  Context {C : Crypto} {TC : TCrypto}.
  Variables (dbg : bool) (sk : ed_secret) (r : Rnd).

  Lemma types_map {A} (mk : A -> Tx) ty l :
    (forall t, tx_type t = ty -> exists a, t = mk a) ->
    (forall x, In x l -> s_type x = ty) -> exists m, map s_tx l = map mk m.
  Proof.
    intros K H. induction l as [|x l IH]; [exists []; reflexivity|].
    destruct (K (s_tx x) (H x (or_introl eq_refl))) as (a & A1).
    destruct IH as (m & M). { intros y Hy. apply H. right. exact Hy. }
    exists (a :: m). cbn [map]. congruence.
  Qed.
  Lemma map_into {A} (proj : Tx -> option A) mk l m : (forall t a, proj t = Some a <-> t = mk a) ->
    map s_tx l = map mk m -> @map_res TaskError _ _ (into_typed proj) l = Ok m.
  Proof.
    intros P. revert m. induction l as [|x l IH]; intros [|a m] E; try discriminate; [reflexivity|].
    cbn [map] in E. injection E as E1 E2. cbn [map_res]. rewrite (IH m E2). unfold into_typed. apply P in E1. rewrite E1. reflexivity.
  Qed.

  Section One.
    Variables (h : list STx) (s : Store).
    Hypothesis Hh : history dbg h.
    Hypothesis H : holds s (stored h).
    Notation L := (stored h).

    Lemma range_total {A} (mk : A -> Tx) e ty : (forall t, tx_type t = ty -> exists a, t = mk a) ->
      exists l, range_is L e ty mk l.
    Proof.
      intros K. apply (types_map mk ty _ K). intros x Hx. apply filter_In in Hx as [Hx E].
      apply (hist_stored dbg h x Hh) in Hx. rewrite <- (hist_typed dbg h x Hh Hx).
      apply andb_prop in E as [_ E]. apply tt_eqb_eq, E.
    Qed.
    Lemma multiple_total {A} (proj : Tx -> option A) mk e ty : (forall t a, proj t = Some a <-> t = mk a) ->
      (forall t, tx_type t = ty -> exists a, t = mk a) ->
      exists l, t_multiple proj s e ty = Ok l /\ range_is L e ty mk l.
    Proof.
      intros P K. destruct (range_total mk e ty K) as (l & R). exists l. split; [|exact R].
      apply (t_multiple_iff s L H _ _ _ _ _ P), R.
    Qed.
    Lemma commitments_total e : exists l, t_multiple as_commitment s e TKeyGenCommitment = Ok l /\ range_is L e TKeyGenCommitment XCommitment l.
    Proof. apply (multiple_total _ _ _ _ as_commitment_iff). intros [] E; try discriminate E. eauto. Qed.
    Lemma shares_total e : exists l, t_multiple as_share s e TKeyGenShare = Ok l /\ range_is L e TKeyGenShare XShare l.
    Proof. apply (multiple_total _ _ _ _ as_share_iff). intros [] E; try discriminate E. eauto. Qed.
    Lemma pubkeys_total e : exists l, t_multiple as_pubkey s e TKeyGenPublicKey = Ok l /\ range_is L e TKeyGenPublicKey XPublicKey l.
    Proof. apply (multiple_total _ _ _ _ as_pubkey_iff). intros [] E; try discriminate E. eauto. Qed.
    Lemma votes_total e : exists l, t_multiple as_vote s e TVote = Ok l /\ range_is L e TVote XVote l.
    Proof. apply (multiple_total _ _ _ _ as_vote_iff). intros [] E; try discriminate E. eauto. Qed.

    (** every recorded transaction was accepted against an earlier content *)
    Lemma was_ok x : In x h -> exists a q, h = a ++ x :: q /\ history dbg a /\ ok_tx (stored a) dbg (s_tx x).
    Proof.
      intros I. destruct (hist_accepted dbg h x Hh I) as (a & q & E & Ha & _ & V). exists a, q.
      apply (validate_iff _ _ (stored_holds a)) in V as (_ & _ & V). auto.
    Qed.
    Lemma later a x q i t : h = a ++ x :: q -> history dbg a -> at_id (stored a) i t -> at_id L i t.
    Proof.
      intros E Ha X. apply (hist_at_id dbg _ _ _ Hh). rewrite E. apply at_id_mono, (hist_at_id dbg _ _ _ Ha), X.
    Qed.
    Lemma election_total x e : In x h -> named_election (s_tx x) = Some e -> exists el, at_id L e (XElection el).
    Proof.
      intros I N. destruct (was_ok x I) as (a & q & E & Ha & V).
      destruct (s_tx x) as [t|t|t|t|t|t|t|t|t|t]; cbn [named_election] in N; try discriminate N; injection N as <-; cbn [ok_tx] in V.
      - destruct V as (el & V & _). exists el. eapply later; eauto.
      - destruct V as (el & V & _). exists el. eapply later; eauto.
      - destruct V as (el & V & _). exists el. eapply later; eauto.
      - destruct V as (el & pks & V & _). exists el. eapply later; eauto.
      - destruct V as (el & V & _). exists el. eapply later; eauto.
      - destruct V as (el & V & _). exists el. eapply later; eauto.
      - destruct V as (_ & (el & mc & V & _) & _). exists el. eapply later; eauto.
      - destruct V as (el & row & pk & V & _). exists el. eapply later; eauto.
      - destruct V as (el & row & pks & parts & V & _). exists el. eapply later; eauto.
    Qed.

    Lemma one_total t : (forall p, tx_public t = Some p -> p = node_key sk) -> exists l, one sk t = Ok l.
    Proof. intros K. destruct (tsign_own sk t K) as (x & X). exists [x]. unfold one. rewrite X. reflexivity. Qed.
    Lemma full_serves e el t : at_id L e (XElection el) -> trustee_from_election el (node_key sk) = Some t ->
      serves L e (ed_public sk) el t /\ tr_public_key t = node_key sk.
    Proof.
      intros A T. split; [split; [exact A|]|apply (proj1 (proj2 (full_acts _ _ _ T)))]. apply full_first in T. exact T.
    Qed.

    Lemma shares_to_ok {E} t shs mine :
      Forall2 (fun sh m => fst m = ks_trustee sh /\ assoc Byte.eqb (tr_index t) (sv (ks_shares sh)) = Some (snd m)) shs mine ->
      @shares_to C E t shs = Ok mine.
    Proof.
      induction 1 as [|sh [i b] shs mine [A B] _ IH]; [reflexivity|]. unfold shares_to in *. cbn [map_res fst snd] in *.
      rewrite B. cbn [or_panic bind]. rewrite IH, A. reflexivity.
    Qed.

    Lemma partial_shares_total i t keys cs shares e p : party t sk keys cs shares e = Ok p ->
      forall cts j, exists ds, partial_shares sk r i j t keys cs shares e cts = Ok ds.
    Proof.
      intros P cts. induction cts as [|ct cts IH]; intros j; [exists []; reflexivity|].
      destruct (IH (S j)) as (ds & D). eexists. cbn [partial_shares]. unfold partial_decrypt. rewrite P. cbn [bind map_err].
      rewrite D. reflexivity.
    Qed.
    Lemma partials_total t keys cs shares e p : party t sk keys cs shares e = Ok p ->
      forall l i, exists xs, partials_from sk r i t keys cs shares e l = Ok xs.
    Proof.
      intros P l. induction l as [|[[[up idx] c] cts] l IH]; intros i; [exists []; reflexivity|].
      destruct (partial_shares_total i t keys cs shares e p P cts 0) as (ds & D). destruct (IH (S i)) as (xs & X).
      cbn [partials_from]. rewrite D. cbn [bind].
      destruct (tsign_own sk (XPartial (mk_partial (partial_build_id e up c idx (tr_index t)) e up idx c (tr_index t) (node_key sk) ds))) as (x & T).
      { cbn. congruence. }
      rewrite T. cbn [bind]. rewrite X. cbn [bind]. eauto.
    Qed.
    Lemma produce_total el t c m : el_id el = el_id el -> party_ready sk L (el_id el) t ->
      exists xs, produce_partials sk r s el t c m = Ok xs.
    Proof.
      intros _ R. destruct (shares_total (el_id el)) as (shs & S1 & S2). destruct (commitments_total (el_id el)) as (cs & C1 & C2).
      destruct (R shs cs S2 C2) as (mine & p & M & P). unfold produce_partials. rewrite S1, C1. cbn [bind].
      rewrite (shares_to_ok t shs mine M). cbn [bind]. destruct m as [m|]; [apply (partials_total _ _ _ _ _ p P)|].
      destruct (votes_total (el_id el)) as (vs & V & _). rewrite V. cbn [bind]. apply (partials_total _ _ _ _ _ p P).
    Qed.
    Lemma enckey_total e : e = slot0 e TElection -> occupied L (slot0 e TEncryptionKey) -> exists k, t_enckey s e = Ok k.
    Proof.
      intros _ (x & I & E). pose proof I as I'. apply (hist_stored dbg h x Hh) in I'. pose proof (hist_typed dbg h x Hh I') as T.
      rewrite E in T. cbn [slot0 id_type] in T. unfold t_enckey.
      assert (G : st_get s (enckey_build_id e) = Ok (Some x)).
      { rewrite (h_get _ _ H). f_equal. apply (entry_in _ _ _ (stored_asc h)). split; [exact I|]. rewrite E. reflexivity. }
      rewrite G. cbn [lift bind or_panic]. unfold into_typed, s_type in *. destruct (s_tx x); try discriminate T. cbn. eauto.
    Qed.
    Lemma first_mixes_total el t key : tr_public_key t = node_key sk -> shuffles ->
      forall l n, exists xs, first_mixes sk r n el t key l = Ok xs.
    Proof.
      intros K Sf l. induction l as [|[c votes] l IH]; intros n; [exists []; reflexivity|]. cbn [first_mixes].
      unfold mix at 1. destruct (shuffle _ _ _ _ _) as [mp|] eqn:Sh; [|destruct (Sf _ _ _ _ Sh)]. cbn [ok_or bind].
      match goal with |- context [tsign sk ?t] => destruct (tsign_own sk t) as (x & T) end.
      { cbn. intros q Q. injection Q as <-. exact K. }
      rewrite T. cbn [bind]. destruct (IH (S n)) as (xs & X). rewrite X. cbn [bind]. eauto.
    Qed.

    Lemma slot_filter e u x :
      (match id_cmp (mk_id e TPartialDecryption (with_last u x00)) (s_id x) with Gt => false | _ => true end
       && match id_cmp (s_id x) (mk_id e TPartialDecryption (with_last u xff)) with Gt => false | _ => true end)%bool
      = (arr_eqb (id_election (s_id x)) e && tt_eqb (id_type (s_id x)) TPartialDecryption
         && bytes_eqb (firstn 15 (arr_l (id_unique (s_id x)))) (firstn 15 (arr_l u)))%bool.
    Proof.
      apply Bool.eq_iff_eq_true. rewrite !andb_true_iff, arr_eqb_eq, tt_eqb_eq, bytes_eqb_eq. split.
      - intros [A B]. destruct (slot_between e TPartialDecryption u (s_id x)) as (X & Y & Z).
        + unfold id_le. destruct (id_cmp _ (s_id x)); congruence.
        + unfold id_le. destruct (id_cmp (s_id x) _); congruence.
        + auto.
      - intros [[A B] D]. destruct (arr16_split (id_unique (s_id x))) as (b & Eb).
        unfold id_cmp. cbn [id_election id_type id_unique]. rewrite A, B, !lex_refl, !byte_cmp_refl, !with_last_l, Eb, D, !lex_app_same.
        cbn [lex]. split.
        + destruct (byte_cmp x00 b) eqn:E; try reflexivity. exfalso. unfold byte_cmp in E. apply N.compare_gt_iff in E.
          change (u8v x00) with 0%N in E. lia.
        + destruct (byte_cmp b xff) eqn:E; try reflexivity. exfalso. unfold byte_cmp in E. apply N.compare_gt_iff in E.
          pose proof (u8v_lt b). change (u8v xff) with 255%N in E. lia.
    Qed.

    Lemma follow_total x : In x h -> ready dbg sk r L x -> exists l, generate_transactions dbg sk r s x = Ok l.
    Proof.
      intros I R. unfold generate_transactions.
      assert (El : forall e, named_election (s_tx x) = Some e -> exists el, t_election s e = Ok el /\ at_id L e (XElection el) /\ el_id el = e).
      { intros e N. destruct (election_total x e I N) as (el & A). exists el. split; [apply (t_election_iff s L H), A|].
        split; [exact A|]. apply (at_election_id L _ _ A). }
      unfold ready in R. pose proof (was_ok x I) as W.
      destruct (s_tx x) as [t|t|t|t|t|t|t|t|t|t] eqn:Tx; cbn [named_election] in *; try (eexists; reflexivity).
      - unfold process_election. destruct (trustee_from_election t (node_key sk)) as [tr|] eqn:Tr; [|eauto].
        apply one_total. cbn. intros q Q. injection Q as <-. apply (proj1 (proj2 (full_acts t _ tr Tr))).
      - destruct (El _ eq_refl) as (el & E1 & E2 & E3). unfold process_keygen_commitment. rewrite E1. cbn [bind].
        destruct (trustee_from_election el (node_key sk)) as [tr|] eqn:Tr; [|eauto].
        destruct (full_serves _ _ _ E2 Tr) as [Se Pk].
        destruct (commitments_total (el_id el)) as (cs & C1 & C2). rewrite C1. cbn [bind].
        destruct (Nat.eqb _ _); [|eauto]. rewrite E3 in *. destruct (R _ _ _ eq_refl Se cs C2) as (m & M).
        unfold x_keys_of, commitments_of. rewrite M. cbn [bind]. apply one_total. cbn. intros q Q. injection Q as <-. exact Pk.
      - destruct (El _ eq_refl) as (el & E1 & E2 & E3). unfold process_keygen_share. rewrite E1. cbn [bind].
        destruct (trustee_from_election el (node_key sk)) as [tr|] eqn:Tr; [|eauto].
        destruct (full_serves _ _ _ E2 Tr) as [Se Pk].
        destruct (shares_total (el_id el)) as (shs & S1 & S2). rewrite S1. cbn [bind].
        destruct (negb _); [eauto|]. destruct (commitments_total (el_id el)) as (cs & C1 & C2). rewrite C1. cbn [bind].
        rewrite E3 in *. destruct (R _ _ _ eq_refl Se shs cs S2 C2) as (mine & p & M & P).
        rewrite (shares_to_ok tr shs mine M). cbn [bind]. unfold generate_public_key, x_keys_of, commitments_of. rewrite P.
        cbn [bind map_err fst snd]. apply one_total. cbn. intros q Q. injection Q as <-. exact Pk.
      - destruct (El _ eq_refl) as (el & E1 & E2 & E3). unfold process_keygen_public_key. rewrite E1. cbn [bind].
        destruct (pk_eqb (el_authority el) (node_key sk)) eqn:K; [|eauto].
        destruct (pubkeys_total (el_id el)) as (pks & P1 & _). rewrite P1. cbn [bind]. destruct (Nat.eqb _ _); [|eauto].
        apply one_total. cbn. intros q Q. injection Q as <-. apply pk_eqb_eq, K.
      - destruct (El _ eq_refl) as (el & E1 & E2 & E3). unfold process_voting_end. rewrite E1. cbn [bind].
        destruct (trustee_from_election el (node_key sk)) as [tr|] eqn:Tr; [|eauto].
        destruct (full_serves _ _ _ E2 Tr) as [Se Pk]. specialize (R _ _ _ eq_refl Se).
        destruct (el_mix_config el).
        + destruct (Byte.eqb _ _); [|eauto]. destruct R as [R1 R2].
          destruct (enckey_total (el_id el)) as (k & K).
          { rewrite E3. apply (hist_election_slot dbg h _ el Hh). apply (hist_at_id dbg _ _ _ Hh), E2. }
          { rewrite E3. exact R1. }
          rewrite K. cbn [bind]. destruct (votes_total (el_id el)) as (vs & V & _). rewrite V. cbn [bind].
          apply first_mixes_total; assumption.
        + destruct (el_contests el); [eauto|]. apply produce_total; [reflexivity|]. rewrite E3. exact R.
      - destruct (El _ eq_refl) as (el & E1 & E2 & E3). unfold process_mix. rewrite E1. cbn [bind].
        destruct (trustee_from_election el (node_key sk)) as [tr|] eqn:Tr; [|eauto].
        destruct (full_serves _ _ _ E2 Tr) as [Se Pk]. destruct (R _ _ _ eq_refl Se) as (R1 & R2 & R3).
        destruct (el_mix_config el); [|eauto].
        assert (Add : forall k, (u8v k <= 2)%N -> exists b, @u8_add TaskError dbg (mx_index t) k = Ok b).
        { intros k Hk. unfold u8_add. cbn zeta. destruct (_ <? 256)%N eqn:Q; [eauto|]. apply N.ltb_ge in Q.
          destruct dbg; [|eauto]. specialize (R3 eq_refl). lia. }
        destruct (Add x01) as (n1 & N1); [vm_compute; congruence|]. destruct (Add x02) as (n2 & N2); [vm_compute; congruence|].
        rewrite N1. cbn [bind]. destruct (Byte.eqb (el_threshold el) n1).
        { apply produce_total; [reflexivity|]. rewrite E3. exact R1. }
        rewrite N2. cbn [bind]. destruct (Byte.eqb _ n2); [|eauto].
        assert (K : exists k, t_enckey s (el_id el) = Ok k).
        { apply enckey_total.
          - rewrite E3. apply (hist_election_slot dbg h _ el Hh). apply (hist_at_id dbg _ _ _ Hh), E2.
          - rewrite E3. destruct W as (a & q & Eh & Ha & V). destruct V as (_ & _ & _ & _ & ins & k & _ & V & _).
            apply (later a x q _ _ Eh Ha) in V as (y & Y1 & Y2 & _). exists y. auto. }
        destruct K as (k & K). rewrite K. cbn [bind].
        unfold mix at 1. destruct (shuffle _ _ _ _ _) as [mp|] eqn:Sh; [|destruct (R2 _ _ _ _ Sh)]. cbn [ok_or bind].
        apply one_total. cbn. intros q Q. injection Q as <-. exact Pk.
      - destruct (El _ eq_refl) as (el & E1 & E2 & E3). unfold process_partial_decryption. rewrite E1. cbn [bind].
        destruct (trustee_from_election el (node_key sk)) as [tr|] eqn:Tr; [|eauto].
        destruct (full_serves _ _ _ E2 Tr) as [Se Pk]. specialize (R _ _ _ eq_refl Se).
        rewrite (h_range _ _ H) by apply slot_start_stop. cbn [lift bind].
        destruct (Nat.leb _ _) eqn:Th; [|eauto]. apply Nat.leb_le in Th.
        assert (B : between L (mk_id (id_election (el_id el)) TPartialDecryption (with_last (id_unique (pd_id t)) x00))
                      (mk_id (id_election (el_id el)) TPartialDecryption (with_last (id_unique (pd_id t)) xff)) = beside L (pd_election t) t).
        { unfold between, beside. apply filter_same. intros y. rewrite slot_filter, E3. reflexivity. }
        rewrite B in *. destruct (types_map XPartial TPartialDecryption (beside L (pd_election t) t)) as (parts & P).
        { intros [] Q; try discriminate Q. eauto. }
        { intros y Hy. apply filter_In in Hy as [Hy Q]. apply (hist_stored dbg h y Hh) in Hy. rewrite <- (hist_typed dbg h y Hh Hy).
          apply andb_prop in Q as [Q _]. apply andb_prop in Q as [_ Q]. apply tt_eqb_eq, Q. }
        rewrite (map_into as_partial XPartial _ parts as_partial_iff P). cbn [bind].
        destruct W as (a & q & Eh & Ha & V). cbn [ok_tx] in V.
        destruct V as (el0 & row & pk & V1 & V2 & V3 & V4 & V5 & _).
        assert (el0 = el).
        { apply (later a x q _ _ Eh Ha) in V1. assert (X : XElection el0 = XElection el) by (apply (at_id_fun s L H _ _ _ V1 E2)). congruence. }
        subst el0. assert (Ro : row_at L el (pd_upstream t) (pd_index t) (pd_contest t) row).
        { rewrite Eh in Hh |- *. apply (row_at_mono dbg a (x :: q) _ _ _ _ _ Hh V5). }
        assert (Rw : t_row s t = Ok row).
        { unfold t_row. destruct Ro as [(Q1 & _ & _ & v & ev & Q2 & Q3 & ->)|(Q1 & _ & m & Q2 & _ & _ & Q3)]; rewrite Q1.
          - apply (typed_at s L H as_vote XVote TVote _ _ as_vote_iff) in Q2 as (g & G). unfold get_vote. rewrite G. cbn [map_err bind fst].
            assert (Pc : forall e, u_eqb (ev_contest e) (pd_contest t) = true <-> ev_contest e = pd_contest t) by (intros; apply u_eqb_eq).
            apply (find_first _ _ _ _ Pc) in Q3. rewrite Q3. reflexivity.
          - apply (typed_at s L H as_mix XMix TMix _ _ as_mix_iff) in Q2 as (g & G). unfold get_mix. rewrite G. cbn [map_err bind fst].
            rewrite Q3. reflexivity. }
        rewrite Rw. cbn [bind]. destruct (pubkeys_total (el_id el)) as (pks & P1 & P2). rewrite P1. cbn [bind].
        rewrite E3 in *. destruct (R row parts pks Ro P2 P) as (sels & D).
        { apply (f_equal (@length _)) in P. rewrite !map_length in P. rewrite <- P. lia. }
        rewrite decrypt_vote_full. apply decrypt_vote_iff in D. rewrite D. cbn [map_err bind].
        apply one_total. cbn. discriminate.
    Qed.
  End One.
End Facts.

Section Hook.
  Context {C : Crypto} {TC : TCrypto}.
  Variables (dbg : bool) (sk : ed_secret) (r : nat -> Rnd).

  Lemma ex_get_total L i : lwf L -> exists o, ex_get L i = Ok o /\ (o = None <-> bt_get L (id_to_string i) = None).
  Proof.
    intros W. unfold ex_get. destruct (bt_get L (id_to_string i)) as [e|] eqn:G.
    - apply (bt_get_in _ _ _ (lw_sorted _ W)) in G. apply (lw_entry _ W) in G as (_ & x & D).
      rewrite (decode_carries _ _ D). exists (Some x). split; [reflexivity|]. split; discriminate.
    - exists None. split; [reflexivity|]. split; auto.
  Qed.
  Lemma unsent_total L l : lwf L -> exists sent, unsent L l = Ok sent
    /\ forall e, In e sent <-> exists y, In y l /\ e = into_env y /\ bt_get L (id_to_string (s_id y)) = None.
  Proof.
    intros W. induction l as [|x l (rest & IH & K)].
    - exists []. split; [reflexivity|]. intros e. split; [intros []|]. intros (y & [] & _).
    - destruct (ex_get_total L (s_id x) W) as (o & G & No). cbn [unsent]. rewrite G, IH. cbn [bind]. destruct o as [z|].
      + exists rest. split; [reflexivity|]. intros e. rewrite K. split.
        * intros (y & I & E & B). exists y. split; [right; exact I|]. auto.
        * intros (y & [<-|I] & E & B); [apply No in B; discriminate|]. exists y. auto.
      + exists (into_env x :: rest). split; [reflexivity|]. intros e. split.
        * intros [<-|I]; [exists x; split; [left; reflexivity|]; split; [reflexivity|apply No; reflexivity]|].
          apply K in I as (y & I & E). exists y. split; [right; exact I|exact E].
        * intros (y & [<-|I] & E & B); [left; auto|]. right. apply K. eauto.
  Qed.

  (** what is sent for one item *)
  Lemma follow_up_spec L n o sent : lwf L -> follow_up dbg sk r n L o = Ok sent ->
    forall e, In e sent <->
      exists e0 i x l y, o = Some e0 /\ id_from_str (sv (en_id e0)) = Ok i /\ ex_get L i = Ok (Some x)
        /\ generate_transactions dbg sk (r n) (ex_store L) x = Ok l /\ In y l /\ e = into_env y
        /\ bt_get L (id_to_string (s_id y)) = None.
  Proof.
    intros W F e. unfold follow_up in F. destruct o as [e0|].
    2: { injection F as <-. split; [intros []|]. intros (? & ? & ? & ? & ? & X & _). discriminate X. }
    destruct (id_from_str (sv (en_id e0))) as [i| |] eqn:Pi; [|injection F as <-|discriminate F].
    2: { split; [intros []|]. intros (? & ? & ? & ? & ? & X & Y & _). injection X as <-. congruence. }
    apply bind_ok in F as (t & G & F). destruct t as [x|].
    2: { injection F as <-. split; [intros []|]. intros (? & ? & ? & ? & ? & X & Y & Z & _). injection X as <-. congruence. }
    apply bind_ok in F as (l & U & F). unfold unwrapped in U.
    destruct (generate_transactions dbg sk (r n) (ex_store L) x) as [l'| |] eqn:Ge; try discriminate U. injection U as <-.
    destruct (unsent_total L l' W) as (sent' & Un & K). rewrite Un in F. injection F as <-. rewrite K. split.
    - intros (y & A & B & D). exists e0, i, x, l', y. auto 12.
    - intros (e1 & i1 & x1 & l1 & y & A1 & A2 & A3 & A4 & A5). injection A1 as <-.
      rewrite Pi in A2. injection A2 as <-. rewrite G in A3. injection A3 as <-. rewrite Ge in A4. injection A4 as <-. eauto.
  Qed.
  Lemma follow_block_outs L b : forall n sent, follow_block dbg sk r n L b = Ok sent <->
    exists outs, Forall2 (fun jo out => follow_up dbg sk r (fst jo) L (snd jo) = Ok out) (combine (seq n (length b)) b) outs
      /\ sent = concat outs.
  Proof.
    induction b as [|o b IH]; intros n sent.
    - cbn [follow_block length seq combine]. split.
      + intros E. injection E as <-. exists []. split; [constructor|reflexivity].
      + intros (outs & F & ->). inversion F. reflexivity.
    - cbn [follow_block length seq combine]. split.
      + intros E. apply bind_ok in E as (s1 & A & E). apply bind_ok in E as (s2 & B & E). injection E as <-.
        apply IH in B as (outs & F & ->). exists (s1 :: outs). split; [constructor; auto|reflexivity].
      + intros (outs & F & ->). inversion F as [|? s1 ? outs' A F']; subst. cbn [fst snd] in A. rewrite A. cbn [bind].
        assert (B : follow_block dbg sk r (S n) L b = Ok (concat outs')) by (apply IH; eauto). rewrite B. reflexivity.
  Qed.

  Definition node_of (bs : list Block) : Node := fold_left (commit dbg) bs genesis.
  Lemma node_chain bs : nd_chain (node_of bs) = [] :: bs /\ nd_ledger (node_of bs) = run dbg [] (flat_map payloads bs).
  Proof.
    induction bs as [|b bs [IH1 IH2]] using rev_ind; [split; reflexivity|].
    unfold node_of in *. rewrite fold_left_app. cbn [fold_left commit nd_chain nd_ledger]. rewrite IH1, IH2. split; [reflexivity|].
    rewrite flat_map_app. cbn [flat_map]. rewrite app_nil_r. unfold execute, run. rewrite fold_left_app. reflexivity.
  Qed.
  Lemma hook_block bs : bs <> [] ->
    after_commit dbg sk r (node_of bs) = follow_block dbg sk r 0 (run dbg [] (flat_map payloads bs)) (nth (length bs - 1) ([] :: bs) []).
  Proof.
    intros N. unfold after_commit. destruct (node_chain bs) as [-> ->]. cbn [length].
    destruct bs as [|b bs]; [contradiction|]. cbn [length]. rewrite Nat.sub_succ, Nat.sub_0_r. reflexivity.
  Qed.
  Lemma run_lwf bs : lwf (run dbg [] (flat_map payloads bs)).
  Proof. apply (reach_lwf dbg), run_reach. constructor. Qed.
End Hook.

Section Run.
  Context {C : Crypto} {TC : TCrypto}.
  Variables (dbg : bool) (sk : ed_secret) (r : nat -> Rnd).

  Lemma run_node_snoc bs b : forall nd, run_node dbg sk r nd (bs ++ [b]) =
    let (last, out) := run_node dbg sk r nd bs in
    match out with
    | Ok sent => let nd' := commit dbg last b in
                 (nd', let! s := after_commit dbg sk r nd' in Ok (sent ++ s))
    | Err e => (last, Err e) | Panic p => (last, Panic p)
    end.
  Proof.
    induction bs as [|c bs IH]; intros nd.
    - cbn [app run_node]. destruct (after_commit dbg sk r (commit dbg nd b)) as [s| |]; cbn [bind]; rewrite ?app_nil_r; reflexivity.
    - cbn [app run_node]. cbn zeta. destruct (after_commit dbg sk r (commit dbg nd c)) as [s| |]; try reflexivity.
      rewrite IH. destruct (run_node dbg sk r (commit dbg nd c) bs) as [last [sent|[]|p]]; cbn [bind].
      + cbn zeta. destruct (after_commit dbg sk r (commit dbg last b)); cbn [bind]; rewrite ?app_assoc; reflexivity.
      + reflexivity.
  Qed.
  Lemma combine_nth {A} (b : list A) d : forall n, combine (seq n (length b)) b = map (fun j => (n + j, nth j b d)) (seq 0 (length b)).
  Proof.
    induction b as [|x b IH]; intros n; [reflexivity|]. cbn [length seq combine map nth]. rewrite Nat.add_0_r. f_equal.
    rewrite IH, <- seq_shift, map_map. apply map_ext. intros j. rewrite Nat.add_succ_r. reflexivity.
  Qed.
  Lemma due_snoc bs b : bs <> [] -> due dbg (bs ++ [b]) =
    due dbg bs ++ map (fun j => (j, ledger_after dbg (bs ++ [b]), nth j (last bs []) None)) (seq 0 (length (last bs []))).
  Proof.
    intros N. unfold due. rewrite app_length. cbn [length]. replace (length bs + 1 - 1) with (S (length bs - 1)).
    2: { destruct bs; [contradiction|]. cbn. lia. }
    rewrite seq_S, flat_map_app. cbn [flat_map plus]. rewrite app_nil_r. f_equal.
    - assert (K : forall l, (forall k, In k l -> S k < length bs) ->
        flat_map (fun k => let b0 := nth k (bs ++ [b]) [] in
          map (fun j => (j, ledger_after dbg (firstn (S (S k)) (bs ++ [b])), nth j b0 None)) (seq 0 (length b0))) l =
        flat_map (fun k => let b0 := nth k bs [] in
          map (fun j => (j, ledger_after dbg (firstn (S (S k)) bs), nth j b0 None)) (seq 0 (length b0))) l).
      { induction l as [|k l IH]; intros H; [reflexivity|]. cbn [flat_map]. f_equal; [|apply IH; intros; apply H; right; assumption].
        specialize (H k (or_introl eq_refl)). cbn zeta. rewrite app_nth1 by lia. rewrite firstn_app.
        replace (S (S k) - length bs) with 0 by lia. cbn [firstn]. rewrite app_nil_r. reflexivity. }
      apply K. intros k Hk. apply in_seq in Hk. lia.
    - cbn zeta.
      assert (E : nth (length bs - 1) (bs ++ [b]) [] = last bs []).
      { rewrite app_nth1 by (destruct bs; [contradiction|cbn; lia]). clear -N.
        induction bs as [|c bs IH]; [contradiction|]. destruct bs as [|d bs]; [reflexivity|].
        specialize (IH ltac:(discriminate)). cbn [length] in *. rewrite Nat.sub_succ, Nat.sub_0_r in *.
        cbn [last] in *. rewrite <- IH. reflexivity. }
      rewrite E. replace (S (S (length bs - 1))) with (length (bs ++ [b])).
      2: { rewrite app_length. cbn. destruct bs; [contradiction|]. cbn. lia. }
      rewrite firstn_all. reflexivity.
  Qed.
  Lemma due_one b : due dbg [b] = [].
  Proof. reflexivity. Qed.
  Lemma prev_block {A} (bs : list (list A)) b : nth (length (bs ++ [b]) - 1) ([] :: bs ++ [b]) [] = match bs with [] => [] | _ => last bs [] end.
  Proof.
    assert (K : forall (l : list (list A)) c, nth (length l) (c :: l ++ [b]) [] = last (c :: l) []).
    { induction l as [|d l IH]; intros c; [reflexivity|]. exact (IH d). }
    rewrite app_length. cbn [length]. rewrite Nat.add_1_r, Nat.sub_succ, Nat.sub_0_r.
    destruct bs as [|c bs]; [reflexivity|]. exact (K bs c).
  Qed.

  Lemma run_node_spec bs : forall nd sent, run_node dbg sk r genesis bs = (nd, Ok sent) ->
    nd = node_of dbg bs /\ exists outs, Forall2 (fun w out => follow_up dbg sk r (fst (fst w)) (snd (fst w)) (snd w) = Ok out) (due dbg bs) outs
      /\ sent = concat outs.
  Proof.
    induction bs as [|b bs IH] using rev_ind; intros nd sent R.
    - cbn [run_node] in R. injection R as <- <-. split; [reflexivity|]. exists []. split; [constructor|reflexivity].
    - rewrite run_node_snoc in R. destruct (run_node dbg sk r genesis bs) as [last [s1| |]]; try discriminate R.
      destruct (IH _ _ eq_refl) as (-> & outs & F & ->). cbn zeta in R. injection R as E R.
      assert (En : commit dbg (node_of dbg bs) b = node_of dbg (bs ++ [b])) by (unfold node_of; rewrite fold_left_app; reflexivity).
      rewrite En in *. split; [auto|]. apply bind_ok in R as (s2 & A & R). injection R as <-.
      rewrite (hook_block dbg sk r (bs ++ [b])) in A by (destruct bs; discriminate). unfold Block in *. rewrite prev_block in A.
      destruct bs as [|c bs].
      { cbn [app follow_block] in A. injection A as <-. exists []. cbn in F. inversion F; subst. split; [constructor|reflexivity]. }
      apply follow_block_outs in A as (outs2 & F2 & ->). exists (outs ++ outs2). split; [|rewrite concat_app; reflexivity].
      rewrite due_snoc by discriminate. apply Forall2_app; [exact F|].
      rewrite (combine_nth _ None) in F2. revert F2. generalize (seq 0 (length (last (c :: bs) []))). intros l.
      revert outs2. induction l as [|j l IHl]; intros outs2 F2; inversion F2 as [|? o ? outs3 X F3]; subst; [constructor|].
      cbn [map]. constructor; [exact X|apply IHl, F3].
  Qed.
  Lemma due_items bs : map snd (due dbg bs) = concat (removelast bs).
  Proof.
    induction bs as [|b bs IH] using rev_ind; [reflexivity|]. rewrite removelast_last. destruct bs as [|c bs]; [reflexivity|].
    rewrite due_snoc by discriminate. rewrite map_app, IH, map_map. cbn [snd].
    rewrite (app_removelast_last [] (l := c :: bs)) at 3 by discriminate. rewrite concat_app. cbn [concat]. rewrite app_nil_r.
    f_equal. clear. generalize (last (c :: bs) []) as l. intros l. induction l as [|o l IH]; [reflexivity|].
    cbn [length seq map nth]. f_equal. rewrite <- seq_shift, map_map. exact IH.
  Qed.

  (** sent are exactly the follow-ups, of recorded transactions of the previous block, whose identifier is not taken *)
  Lemma sent_exactly bs sent : bs <> [] -> after_commit dbg sk r (node_of dbg bs) = Ok sent ->
    let L := ledger_after dbg bs in
    forall e, In e sent <-> exists n e0 i x l y,
      nth_error (last (removelast bs) []) n = Some (Some e0) /\ id_from_str (sv (en_id e0)) = Ok i
      /\ ex_get L i = Ok (Some x) /\ generate_transactions dbg sk (r n) (ex_store L) x = Ok l /\ In y l
      /\ e = into_env y /\ forall e', ~ recorded L (id_to_string (s_id y)) e'.
  Proof.
    intros N A L e. rewrite hook_block in A by exact N. unfold Block in *.
    assert (P : nth (length bs - 1) ([] :: bs) [] = last (removelast bs) []).
    { destruct (rev bs) as [|b bs'] eqn:Er; [apply (f_equal (@rev _)) in Er; rewrite rev_involutive in Er; cbn in Er; contradiction|].
      apply (f_equal (@rev _)) in Er. rewrite rev_involutive in Er. cbn [rev] in Er. rewrite Er, prev_block, removelast_last.
      destruct (rev bs'); reflexivity. }
    rewrite P in A. pose proof (run_lwf dbg bs) as W. change (run dbg [] (flat_map payloads bs)) with L in A, W.
    apply follow_block_outs in A as (outs & F & ->). rewrite in_concat.
    assert (Rec : forall k, bt_get L k = None <-> forall e', ~ recorded L k e').
    { intros k. split.
      - intros G e' X. apply (bt_get_in _ _ _ (lw_sorted _ W)) in X. congruence.
      - intros X. destruct (bt_get L k) as [e'|] eqn:G; [|reflexivity]. apply (bt_get_in _ _ _ (lw_sorted _ W)) in G. destruct (X e' G). }
    rewrite (combine_nth _ None 0) in F. split.
    - intros (out & Io & Ie). apply In_nth_error in Io as (n & Io).
      assert (K : exists j, In j (seq 0 (length (last (removelast bs) []))) /\ follow_up dbg sk r j L (nth j (last (removelast bs) []) None) = Ok out).
      { clear -F Io. revert outs n F Io. generalize (seq 0 (length (last (removelast bs) []))). intros l. induction l as [|j l IH]; intros outs n F Io.
        - inversion F; subst. destruct n; discriminate Io.
        - inversion F as [|? o ? outs' X F']; subst. destruct n as [|n].
          + injection Io as <-. exists j. split; [left; reflexivity|]. exact X.
          + destruct (IH _ _ F' Io) as (j' & A & B). exists j'. split; [right; exact A|exact B]. }
      destruct K as (j & Ij & K). apply in_seq in Ij.
      destruct (proj1 (follow_up_spec dbg sk r L j _ out W K e) Ie) as (e0 & i & x & l & y & H1 & H2 & H3 & H4 & H5 & H6 & H7).
      exists j, e0, i, x, l, y. split.
      { rewrite (nth_error_nth' _ None) by lia. rewrite H1. reflexivity. }
      repeat (split; [assumption|]). apply Rec, H7.
    - intros (n & e0 & i & x & l & y & H1 & H2 & H3 & H4 & H5 & H6 & H7).
      assert (Ln : n < length (last (removelast bs) [])) by (apply nth_error_Some; congruence).
      assert (K : exists out, In out outs /\ follow_up dbg sk r n L (nth n (last (removelast bs) []) None) = Ok out).
      { assert (In' : In n (seq 0 (length (last (removelast bs) [])))) by (apply in_seq; lia). clear -F In'. revert outs F.
        revert In'. generalize (seq 0 (length (last (removelast bs) []))). intros l. induction l as [|j l IH]; intros In' outs F; [destruct In'|].
        inversion F as [|? o ? outs' X F']; subst. destruct In' as [->|In'].
        - exists o. split; [left; reflexivity|exact X].
        - destruct (IH In' _ F') as (o' & A & B). exists o'. split; [right; exact A|exact B]. }
      destruct K as (out & Io & K). exists out. split; [exact Io|]. apply (follow_up_spec dbg sk r L n _ out W K).
      exists e0, i, x, l, y. apply (nth_error_nth _ _ None) in H1. rewrite H1. repeat (split; [assumption || reflexivity|]). apply Rec, H7.
  Qed.
End Run.

Section Total.
  Context {C : Crypto} {TC : TCrypto}.
  Lemma follow_block_total dbg sk r L b : (forall n o, In o b -> exists sent, follow_up dbg sk r n L o = Ok sent) ->
    forall n, exists sent, follow_block dbg sk r n L b = Ok sent.
  Proof.
    induction b as [|o b IH]; intros H n; [exists []; reflexivity|]. destruct (H n o (or_introl eq_refl)) as (s1 & E1).
    destruct (IH (fun n o I => H n o (or_intror I)) (S n)) as (s2 & E2). exists (s1 ++ s2). cbn [follow_block].
    rewrite E1, E2. reflexivity.
  Qed.
End Total.
