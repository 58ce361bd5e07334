(** * TasksFacts3: generated partial decryptions and decryptions against validation. *)
From Verif Require Import Base BaseFacts Utf8 Cbor Ident BuildId IdentFacts Crypto Types Serde SerdeFacts Store SpecStore StoreFacts
  Prost Validate ValidateFacts SpecValid ValidFacts ValidFacts2 ValidFacts3 SpecHist HistFacts SpecMix MixFacts SpecDecrypt DecryptFacts
  Trustee Tasks SpecTasks TasksFacts TasksFacts2.
From Coq Require Import ZifyBool ZifyNat ZifyN.
Open Scope list_scope.

Section Partials.
  Context {C : Crypto} {TC : TCrypto}.
  Variables (dbg : bool) (sk : ed_secret) (r : Rnd).
  Hypothesis law : ed_sign_verifies.
  Hypothesis psv : party_share_verifies.
  Variables (s : Store) (L : list STx).
  Hypothesis H : holds s L.

  Lemma partial_shares_ok t keys cm sh e i cts : forall j ds, partial_shares sk r i j t keys cm sh e cts = Ok ds ->
    Forall2 (fun d ct => exists rnd, partial_decrypt rnd t sk keys cm sh ct e = Ok d) ds cts.
  Proof.
    induction cts as [|ct cts IH]; intros j ds E; cbn [partial_shares] in E; [injection E as <-; constructor|].
    apply bind_ok in E as (d & A & E). apply map_err_ok in A. apply bind_ok in E as (ds' & B & E). injection E as <-.
    constructor; eauto.
  Qed.
  Definition partial_tx e up idx c (t : Trustee) ds : Tx :=
    XPartial (mk_partial (partial_build_id e up c idx (tr_index t)) e up idx c (tr_index t) (node_key sk) ds).
  Lemma partials_from_in t keys cm sh e l : forall n xs, partials_from sk r n t keys cm sh e l = Ok xs ->
    Forall2 (fun x src => let '(up, idx, c, cts) := src in exists i ds,
       partial_shares sk r i 0 t keys cm sh e cts = Ok ds /\ tsign sk (partial_tx e up idx c t ds) = Ok x) xs l.
  Proof.
    induction l as [|[[[up idx] c] cts] l IH]; intros n xs E; cbn [partials_from] in E; [injection E as <-; constructor|].
    apply bind_ok in E as (ds & A & E). apply bind_ok in E as (y & B & E). apply bind_ok in E as (ys & D & E).
    injection E as <-. constructor; [eauto|]. eapply IH, D.
  Qed.
  Lemma Forall2_in_l {A B} (P : A -> B -> Prop) l l' a : Forall2 P l l' -> In a l -> exists b, In b l' /\ P a b.
  Proof. induction 1; intros []; [subst; eauto using in_eq|]. destruct IHForall2 as (? & ? & ?); eauto using in_cons. Qed.
  Lemma Forall2_in_r {A B} (P : A -> B -> Prop) l l' b : Forall2 P l l' -> In b l' -> exists a, In a l /\ P a b.
  Proof. induction 1; intros []; [subst; eauto using in_eq|]. destruct IHForall2 as (? & ? & ?); eauto using in_cons. Qed.

  (** the public key the node would generate now is the recorded one *)
  Definition own_key_recorded (e : Identifier) : Prop :=
    exists sh y pk, ks_election sh = e /\ process_keygen_share sk s sh = Ok [y] /\ s_tx y = XPublicKey pk
      /\ at_id L (kp_id pk) (XPublicKey pk).

  Lemma own_key_party e el t : own_key_recorded e -> at_id L e (XElection el) ->
    trustee_from_election el (node_key sk) = Some t ->
    exists shs cs shares p pk, t_multiple as_share s e TKeyGenShare = Ok shs
      /\ t_multiple as_commitment s e TKeyGenCommitment = Ok cs /\ @shares_to C TaskError t shs = Ok shares
      /\ party t sk (x_keys_of cs) (commitments_of cs) shares e = Ok p
      /\ at_id L (pubkey_build_id e (tr_index t)) (XPublicKey pk) /\ kp_trustee pk = tr_index t /\ kp_public pk = node_key sk
      /\ kp_proof pk = tp_proof p.
  Proof.
    intros (sh & y & pk & Es & P & Ty & A) El T. unfold process_keygen_share in P. apply bind_ok in P as (el' & A' & P).
    apply (t_election_iff s L H) in A'. rewrite Es in A'.
    assert (E1 : XElection el' = XElection el) by (apply (at_id_fun s L H _ _ _ A' El)). injection E1 as ->.
    pose proof (at_election_id L _ _ El) as Ei. clear A'. rewrite T in P. apply bind_ok in P as (shs & S & P).
    destruct (negb _); [discriminate|]. apply bind_ok in P as (cs & Cs & P). apply bind_ok in P as (shares & Sh & P).
    apply bind_ok in P as (kp & K & P). apply map_err_ok in K. unfold generate_public_key in K.
    apply bind_ok in K as (p & Hp & K). injection K as <-. cbn [fst snd] in P. unfold one in P.
    apply bind_ok in P as (z & Z & P). injection P as <-. unfold tsign in Z. apply map_err_ok, sign_ok in Z as [-> _].
    cbn [s_tx] in Ty. injection Ty as <-. rewrite Ei in *. pose proof (full_acts _ _ _ T) as (_ & D & _).
    exists shs, cs, shares, p. eexists. split; [exact S|]. split; [exact Cs|]. split; [exact Sh|]. split; [exact Hp|].
    split; [exact A|]. auto.
  Qed.

  Lemma party_verifies t keys cm sh e p ds cts i : party t sk keys cm sh e = Ok p ->
    partial_shares sk r i 0 t keys cm sh e cts = Ok ds ->
    Forall2 (fun d ct => share_verify d (tp_proof p) ct = true) ds cts.
  Proof.
    intros P S. apply partial_shares_ok in S. induction S as [|d ct ds cts (rnd & D) _ IH]; constructor; [|exact IH].
    unfold partial_decrypt in D. rewrite P in D. cbn [bind] in D. injection D as <-. apply psv.
  Qed.

  Lemma nodup_first (l : list EncryptedVote) ev : NoDup (map ev_contest l) -> In ev l ->
    first_with (fun e => ev_contest e = ev_contest ev) l ev.
  Proof.
    intros N I. apply in_split in I as (pre & post & ->). exists pre, post. split; [reflexivity|]. split; [reflexivity|].
    intros b Ib E. rewrite map_app in N. cbn [map] in N. apply NoDup_remove_2 in N. apply N, in_or_app. left.
    rewrite <- E. apply in_map, Ib.
  Qed.

  (** ** after the voting end, without mixnet *)
  Lemma end_partials ve l el : process_voting_end sk r s ve = Ok l ->
    at_id L (ve_election ve) (XElection el) -> el_mix_config el = None ->
    (forall x, In x l -> exists p v ev, s_tx x = XPartial p /\ pd_election p = ve_election ve /\ pd_public p = node_key sk
        /\ at_id L (vt_id v) (XVote v) /\ id_election (vt_id v) = id_election (ve_election ve) /\ In ev (vt_votes v)
        /\ pd_upstream p = vt_id v /\ uv (pd_index p) = 0%N /\ pd_contest p = ev_contest ev
        /\ (NoDup (map ev_contest (vt_votes v)) -> own_key_recorded (ve_election ve) ->
            occupied L (slot0 (ve_election ve) TVotingEnd) -> validate dbg s x = Ok tt))
    /\ (is_trustee el (node_key sk) -> el_contests el <> [] ->
        forall y v ev, In y (listed L (ve_election ve) TVote) -> s_tx y = XVote v -> In ev (vt_votes v) ->
        exists x p, In x l /\ s_tx x = XPartial p /\ pd_upstream p = vt_id v /\ pd_contest p = ev_contest ev
          /\ List.length (pd_shares p) = List.length (ev_selections ev)).
  Proof.
    intros P A M. unfold process_voting_end in P. apply bind_ok in P as (el' & A' & P).
    apply (t_election_iff s L H) in A'. assert (E1 : XElection el' = XElection el) by (apply (at_id_fun s L H _ _ _ A' A)).
    injection E1 as ->. pose proof (at_election_id L _ _ A) as Ei. clear A'.
    destruct (trustee_from_election el (node_key sk)) as [t|] eqn:T.
    2:{ injection P as <-. split; [intros x []|]. intros I. apply full_none in T. contradiction. }
    rewrite M in P. destruct (el_contests el) as [|c0 cs0] eqn:Ec.
    { injection P as <-. split; [intros x []|]. intros _ X. congruence. }
    unfold produce_partials in P. apply bind_ok in P as (shs & S & P). apply bind_ok in P as (cs & Cs & P).
    apply bind_ok in P as (shares & Sh & P). apply bind_ok in P as (vs & R & P). rewrite Ei in S, Cs, R, P.
    apply (t_multiple_iff s L H _ _ _ _ _ as_vote_iff) in R. pose proof (full_acts _ _ _ T) as (_ & D & Lt).
    apply partials_from_in in P. split.
    - intros x I. destruct (Forall2_in_l _ _ _ _ P I) as ([[[up idx] c] cts] & Is & i & ds & Ds & X).
      apply in_flat_map in Is as (v & Iv & Is). unfold vote_sources in Is. apply in_map_iff in Is as (ev & Es & Ie).
      injection Es as <- <- <- <-. pose proof X as X'. unfold tsign in X'. apply map_err_ok, sign_ok in X' as [-> _].
      cbn [s_tx partial_tx] in *. eexists; exists v, ev. split; [reflexivity|].
      cbn [pd_election pd_public pd_upstream pd_index pd_contest].
      assert (Q : In (XVote v) (map s_tx (listed L (ve_election ve) TVote))) by (rewrite R; apply in_map, Iv).
      apply in_map_iff in Q as (y & Ty & Iy). apply listed_in in Iy as (Iy & Y1 & Y2).
      assert (Iv' : at_id L (vt_id v) (XVote v)).
      { exists y. split; [exact Iy|]. split; [|exact Ty]. unfold s_id. rewrite Ty. reflexivity. }
      assert (Eid : s_id y = vt_id v) by (unfold s_id; rewrite Ty; reflexivity). rewrite Eid in Y1, Y2.
      split; [reflexivity|]. split; [reflexivity|]. split; [exact Iv'|]. split; [exact Y1|]. split; [exact Ie|].
      split; [reflexivity|]. split; [reflexivity|]. split; [reflexivity|]. intros N O V.
      destruct (own_key_party _ _ _ O A T) as (shs' & cs' & shares' & p & pk & S' & Cs' & Sh' & Hp & K1 & K2 & K3 & K4).
      assert (shs' = shs) by congruence. subst shs'. assert (cs' = cs) by congruence. subst cs'.
      assert (shares' = shares) by congruence. subst shares'.
      eapply (tsign_valid dbg sk law s L H); [exact X|reflexivity|]. cbn [ok_tx]. exists el, (ev_selections ev), pk.
      cbn [pd_election pd_trustee pd_public pd_id pd_upstream pd_contest pd_index pd_shares].
      split; [exact A|]. split; [exact Lt|]. split; [reflexivity|]. split; [exact V|]. split.
      + left. split; [exact Y2|]. split; [exact M|]. split; [reflexivity|]. exists v, ev. split; [exact Iv'|].
        split; [|reflexivity]. apply nodup_first; assumption.
      + split; [exact K1|]. split; [exact K2|]. split; [exact K3|]. rewrite K4. eapply party_verifies; eauto.
    - intros _ _ y v ev Iy Ty Ie. assert (Q : In (XVote v) (map XVote vs)) by (rewrite <- R, <- Ty; apply in_map, Iy).
      apply in_map_iff in Q as (w & Q & Iv). injection Q as ->.
      assert (Is : In (vt_id v, u_of 2 0, ev_contest ev, ev_selections ev) (flat_map vote_sources vs)).
      { apply in_flat_map. exists v. split; [exact Iv|]. unfold vote_sources. apply in_map_iff. eauto. }
      destruct (Forall2_in_r _ _ _ _ P Is) as (x & I & i & ds & Ds & X). unfold tsign in X.
      apply map_err_ok, sign_ok in X as [-> _]. eexists; eexists. split; [exact I|]. split; [reflexivity|].
      cbn [pd_upstream pd_contest pd_shares]. split; [reflexivity|]. split; [reflexivity|].
      apply partial_shares_ok in Ds. eapply ValidFacts3.Forall2_length, Ds.
  Qed.

  Lemma rows_from_nth up c rows : forall n src, In src (rows_from n up c rows) ->
    exists k row, nth_error rows k = Some row /\ src = (up, u_of 2 (n + N.of_nat k), c, row).
  Proof.
    induction rows as [|row rows IH]; intros n src I; [destruct I|]. cbn [rows_from] in I. destruct I as [<-|I].
    - exists 0, row. split; [reflexivity|]. rewrite N.add_0_r. reflexivity.
    - destruct (IH _ _ I) as (k & row' & A & ->). exists (S k), row'. split; [exact A|].
      replace (n + N.of_nat (S k))%N with (N.succ n + N.of_nat k)%N by lia. reflexivity.
  Qed.
  Lemma rows_from_all up c rows : forall n k row, nth_error rows k = Some row ->
    In (up, u_of 2 (n + N.of_nat k), c, row) (rows_from n up c rows).
  Proof.
    induction rows as [|row rows IH]; intros n [|k] row' E; try discriminate.
    - injection E as <-. left. rewrite N.add_0_r. reflexivity.
    - right. replace (n + N.of_nat (S k))%N with (N.succ n + N.of_nat k)%N by lia. apply IH, E.
  Qed.

  (** ** after the last mix *)
  Lemma mix_partials m l el mc : process_mix dbg sk r s m = Ok l ->
    at_id L (mx_election m) (XElection el) -> el_mix_config el = Some mc ->
    u8v (el_threshold el) = (u8v (mx_index m) + 1)%N ->
    at_id L (mx_id m) (XMix m) -> id_type (mx_id m) = TMix -> (N.of_nat (List.length (mx_out m)) < 65536)%N ->
    (forall x, In x l -> exists p row, s_tx x = XPartial p /\ pd_election p = mx_election m /\ pd_public p = node_key sk
        /\ pd_upstream p = mx_id m /\ pd_contest p = mx_contest m
        /\ nth_error (mx_out m) (N.to_nat (uv (pd_index p))) = Some row
        /\ (own_key_recorded (mx_election m) -> occupied L (slot0 (mx_election m) TVotingEnd) -> validate dbg s x = Ok tt))
    /\ (is_trustee el (node_key sk) ->
        forall k row, nth_error (mx_out m) k = Some row ->
        exists x p, In x l /\ s_tx x = XPartial p /\ pd_upstream p = mx_id m /\ pd_contest p = mx_contest m
          /\ uv (pd_index p) = N.of_nat k /\ List.length (pd_shares p) = List.length row).
  Proof.
    intros P A M Th Am Tm Len. unfold process_mix in P. apply bind_ok in P as (el' & A' & P).
    apply (t_election_iff s L H) in A'. assert (E1 : XElection el' = XElection el) by (apply (at_id_fun s L H _ _ _ A' A)).
    injection E1 as ->. pose proof (at_election_id L _ _ A) as Ei. clear A'.
    destruct (trustee_from_election el (node_key sk)) as [t|] eqn:T.
    2:{ injection P as <-. split; [intros x []|]. intros I. apply full_none in T. contradiction. }
    rewrite M in P. apply bind_ok in P as (nx & Nx & P).
    assert (En : el_threshold el = nx).
    { apply u8v_inj. rewrite Th. clear -Nx Th. pose proof (u8v_lt (el_threshold el)) as B. unfold u8_add in Nx.
      change (u8v x01) with 1%N in Nx. destruct (N.ltb_spec (u8v (mx_index m) + 1) 256); [|lia].
      injection Nx as <-. rewrite u8v_u8_of, N.mod_small by assumption. reflexivity. }
    assert (B : Byte.eqb (el_threshold el) nx = true) by (apply byte_eqb_eq, En). rewrite B in P. clear B.
    unfold produce_partials in P. apply bind_ok in P as (shs & S & P). apply bind_ok in P as (cs & Cs & P).
    apply bind_ok in P as (shares & Sh & P). rewrite Ei in S, Cs, P. pose proof (full_acts _ _ _ T) as (_ & D & Lt).
    assert (Small : forall k (row : list Ciphertext), nth_error (mx_out m) k = Some row -> (N.of_nat k < 65536)%N /\ (N.of_nat k < N.of_nat (List.length (mx_out m)))%N).
    { intros k row E. assert (k < List.length (mx_out m)) by (apply nth_error_Some; congruence). lia. }
    apply partials_from_in in P. split.
    - intros x I. destruct (Forall2_in_l _ _ _ _ P I) as (src & Is & Q).
      apply rows_from_nth in Is as (k & row & Er & ->). destruct Q as (i & ds & Ds & X). rewrite N.add_0_l in X.
      pose proof X as X'. unfold tsign in X'. apply map_err_ok, sign_ok in X' as [-> _].
      cbn [s_tx partial_tx] in *. destruct (Small _ _ Er) as [Sk1 Sk2]. eexists; exists row. split; [reflexivity|].
      cbn [pd_election pd_public pd_upstream pd_index pd_contest]. rewrite uv_u_of by exact Sk1. rewrite Nat2N.id.
      split; [reflexivity|]. split; [reflexivity|]. split; [reflexivity|]. split; [reflexivity|]. split; [exact Er|].
      intros O V. destruct (own_key_party _ _ _ O A T) as (shs' & cs' & shares' & p & pk & S' & Cs' & Sh' & Hp & K1 & K2 & K3 & K4).
      assert (shs' = shs) by congruence. subst shs'. assert (cs' = cs) by congruence. subst cs'.
      assert (shares' = shares) by congruence. subst shares'.
      eapply (tsign_valid dbg sk law s L H); [exact X|reflexivity|]. cbn [ok_tx]. exists el, row, pk.
      cbn [pd_election pd_trustee pd_public pd_id pd_upstream pd_contest pd_index pd_shares].
      split; [exact A|]. split; [exact Lt|]. split; [reflexivity|]. split; [exact V|]. split.
      + right. split; [exact Tm|]. split; [congruence|]. exists m. split; [exact Am|]. split; [reflexivity|].
        rewrite uv_u_of by exact Sk1. rewrite Nat2N.id, N.mod_small by lia. split; [exact Sk2|exact Er].
      + split; [exact K1|]. split; [exact K2|]. split; [exact K3|]. rewrite K4. eapply party_verifies; eauto.
    - intros _ k row Er. pose proof (rows_from_all (mx_id m) (mx_contest m) (mx_out m) 0 k row Er) as Is.
      destruct (Forall2_in_r _ _ _ _ P Is) as (x & I & i & ds & Ds & X). unfold tsign in X.
      apply map_err_ok, sign_ok in X as [-> _]. eexists; eexists. split; [exact I|]. split; [reflexivity|].
      cbn [pd_upstream pd_contest pd_shares pd_index]. rewrite N.add_0_l. destruct (Small _ _ Er) as [Sk1 Sk2].
      split; [reflexivity|]. split; [reflexivity|]. split; [apply uv_u_of, Sk1|].
      apply partial_shares_ok in Ds. eapply ValidFacts3.Forall2_length, Ds.
  Qed.
End Partials.

(** ** decryptions *)
Lemma with_last_l u b : arr_l (with_last u b) = firstn 15 (arr_l u) ++ [b].
Proof. reflexivity. Qed.
Lemma with_last_slot up c i t b : row_type (id_type up) -> with_last (slot_unique up c i t) b = slot_unique up c i b.
Proof.
  intros R. apply arr_ext. rewrite with_last_l. unfold slot_unique.
  assert (K : forall (p : bytes) x y, length p = 15 -> firstn 15 (p ++ [x]) ++ [y] = p ++ [y]).
  { intros p x y E. rewrite <- E, firstn_app, firstn_all, Nat.sub_diag. cbn [firstn]. rewrite app_nil_r. reflexivity. }
  destruct R as [-> | ->]; cbn [arr_app arr_l arr1]; rewrite !app_assoc; apply K;
    rewrite !app_length, ?arr_len; reflexivity.
Qed.
Lemma with_last_eq u u' b : firstn 15 (arr_l u) = firstn 15 (arr_l u') -> with_last u b = with_last u' b.
Proof. intros E. apply arr_ext. rewrite !with_last_l, E. reflexivity. Qed.

Lemma arr16_split (u : arr 16) : exists b, arr_l u = firstn 15 (arr_l u) ++ [b].
Proof.
  pose proof (arr_len u) as Len. pose proof (firstn_skipn 15 (arr_l u)) as F.
  assert (E : length (skipn 15 (arr_l u)) = 1) by (rewrite skipn_length, Len; reflexivity).
  destruct (skipn 15 (arr_l u)) as [|b [|? ?]]; try discriminate E. exists b. symmetry. exact F.
Qed.
Lemma slot_between e t u i :
  id_le (mk_id e t (with_last u x00)) i -> id_le i (mk_id e t (with_last u xff)) ->
  id_election i = e /\ id_type i = t /\ firstn 15 (arr_l (id_unique i)) = firstn 15 (arr_l u).
Proof.
  unfold id_le, id_cmp. cbn [id_election id_type id_unique].
  rewrite (lex_opp (arr_l e) (arr_l (id_election i))), (byte_cmp_opp (tt_u8 t) (tt_u8 (id_type i))).
  intros H1 H2. destruct (lex (arr_l e) (arr_l (id_election i))) eqn:E; cbn [CompOpp] in *; try congruence.
  apply lex_eq, arr_ext in E. split; [auto|].
  destruct (byte_cmp (tt_u8 t) (tt_u8 (id_type i))) eqn:T; cbn [CompOpp] in *; try congruence.
  apply byte_cmp_eq, tt_u8_inj in T. split; [auto|]. rewrite !with_last_l in *.
  destruct (arr16_split (id_unique i)) as (b & Eb). rewrite Eb in H1, H2.
  assert (Le : length (firstn 15 (arr_l u)) = length (firstn 15 (arr_l (id_unique i)))) by (rewrite !firstn_length, !arr_len; reflexivity).
  rewrite lex_app in H1 by exact Le. rewrite lex_app in H2 by (symmetry; exact Le).
  rewrite (lex_opp (firstn 15 (arr_l u))) in H2.
  destruct (lex (firstn 15 (arr_l u)) (firstn 15 (arr_l (id_unique i)))) eqn:X; cbn [CompOpp] in *; try congruence.
  apply lex_eq in X. auto.
Qed.
Lemma slot_start_stop e t u : id_le (mk_id e t (with_last u x00)) (mk_id e t (with_last u xff)).
Proof.
  unfold id_le, id_cmp. cbn [id_election id_type id_unique]. rewrite lex_refl, byte_cmp_refl, !with_last_l, lex_app_same.
  discriminate.
Qed.

Section Decrypt.
  Context {C : Crypto} {TC : TCrypto}.
  Variables (dbg : bool) (sk : ed_secret).
  Hypothesis law : ed_sign_verifies.

  Lemma decrypt_shares_full el i pks parts :
    decrypt_shares i (get_full_trustees el) pks parts = decrypt_shares i (el_trustees el) pks parts.
  Proof.
    unfold decrypt_shares, get_full_trustees. f_equal. generalize (u_of 8 (N.of_nat (length (el_trustees el)))) as n. intros n.
    induction (el_trustees el) as [|t l IH]; [reflexivity|]. cbn [map map_res tr_index]. rewrite IH. reflexivity.
  Qed.
  Lemma decrypt_vote_full el cts th pks parts :
    decrypt_vote cts th (get_full_trustees el) pks parts = decrypt_vote cts th (el_trustees el) pks parts.
  Proof.
    unfold decrypt_vote. generalize 0 as i. induction cts as [|ct cts IH]; intros i; [reflexivity|].
    cbn [decrypt_from]. rewrite decrypt_shares_full, IH. reflexivity.
  Qed.

  Lemma hist_at_id h i t : history dbg h -> (at_id (stored h) i t <-> at_id h i t).
  Proof. intros Hh. split; intros (x & A & B); exists x; (split; [apply (hist_stored dbg h x Hh), A|exact B]). Qed.
  Lemma hist_election_slot h i el : history dbg h -> at_id h i (XElection el) -> i = slot0 i TElection.
  Proof.
    intros Hh (x & Ix & Ex & Tx). destruct (hist_accepted dbg h x Hh Ix) as (a & b & _ & _ & _ & V).
    apply (validate_iff _ _ (stored_holds a)) in V as (_ & _ & V). rewrite Tx in V. destruct V as (V & _).
    assert (E : el_id el = i) by (rewrite <- Ex; unfold s_id; rewrite Tx; reflexivity). rewrite <- E. exact V.
  Qed.
  Lemma row_at_mono a q el up idx c row : history dbg (a ++ q) -> row_at (stored a) el up idx c row ->
    row_at (stored (a ++ q)) el up idx c row.
  Proof.
    intros Hh. pose proof (hist_prefix dbg a q Hh) as Ha.
    assert (M : forall i t, at_id (stored a) i t -> at_id (stored (a ++ q)) i t).
    { intros i t X. apply (hist_at_id _ _ _ Hh), at_id_mono, (hist_at_id _ _ _ Ha), X. }
    intros [(A & B & D & v & ev & E & F)|(A & B & m & E & F)]; [left|right].
    - repeat (split; [assumption|]). exists v, ev. auto.
    - repeat (split; [assumption|]). exists m. auto.
  Qed.
  Lemma row_at_fun s L el up idx c row row' : holds s L -> row_at L el up idx c row -> row_at L el up idx c row' -> row = row'.
  Proof.
    intros H [A|A] [B|B].
    - destruct A as (_ & _ & _ & v & ev & A1 & A2 & ->), B as (_ & _ & _ & v' & ev' & B1 & B2 & ->).
      assert (E : XVote v = XVote v') by (apply (at_id_fun s L H _ _ _ A1 B1)). injection E as <-.
      assert (P : forall e, u_eqb (ev_contest e) c = true <-> ev_contest e = c) by (intros; apply u_eqb_eq).
      apply (find_first _ _ _ _ P) in A2. apply (find_first _ _ _ _ P) in B2. congruence.
    - destruct A as (A & _), B as (B & _). congruence.
    - destruct A as (A & _), B as (B & _). congruence.
    - destruct A as (_ & _ & m & A1 & _ & _ & A2), B as (_ & _ & m' & B1 & _ & _ & B2).
      assert (E : XMix m = XMix m') by (apply (at_id_fun s L H _ _ _ A1 B1)). congruence.
  Qed.

  Lemma partial_task h x0 p l x : history dbg h -> In x0 h -> s_tx x0 = XPartial p ->
    process_partial_decryption sk (ms_store (ms_from h)) p = Ok l -> In x l ->
    exists d, s_tx x = XDecryption d /\ dc_election d = pd_election p /\ dc_upstream d = pd_upstream p
      /\ dc_contest d = pd_contest p /\ dc_index d = pd_index p /\ validate dbg (ms_store (ms_from h)) x = Ok tt.
  Proof.
    intros Hh I0 T0 P I. pose proof (stored_holds h) as H. set (s := ms_store (ms_from h)) in *. set (L := stored h) in *.
    unfold process_partial_decryption in P. apply bind_ok in P as (el & A & P).
    apply (t_election_iff s L H) in A. pose proof (at_election_id L _ _ A) as Ei.
    destruct (trustee_from_election el (node_key sk)) as [t|] eqn:T; [|injection P as <-; destruct I].
    apply bind_ok in P as (range & R & P). rewrite (h_range _ _ H) in R by apply slot_start_stop.
    cbn [lift] in R. injection R as <-. set (start := mk_id _ _ (with_last _ x00)) in *. set (stop := mk_id _ _ (with_last _ xff)) in *.
    destruct (Nat.leb _ _) eqn:Th; [|injection P as <-; destruct I]. apply Nat.leb_le in Th.
    apply bind_ok in P as (parts & Pa & P). apply bind_ok in P as (cts & Ct & P).
    apply bind_ok in P as (pks & Pk & P). apply (t_multiple_iff s L H _ _ _ _ _ as_pubkey_iff) in Pk.
    apply bind_ok in P as (sels & Se & P). apply map_err_ok in Se. rewrite decrypt_vote_full in Se.
    apply decrypt_vote_iff in Se. rewrite Ei in Pk.
    (* the recorded partial decryption *)
    destruct (hist_accepted dbg h x0 Hh I0) as (pre & post & Eh & Hpre & _ & V).
    apply (partial_accepted dbg _ _ x0 p (stored_holds pre) T0) in V as (el0 & row & pk & V1 & V2 & V3 & V4 & V5 & _).
    assert (El0 : el0 = el).
    { assert (X : at_id L (pd_election p) (XElection el0)).
      { apply (hist_at_id _ _ _ Hh). rewrite Eh. apply at_id_mono, (hist_at_id _ _ _ Hpre), V1. }
      assert (X' : XElection el0 = XElection el) by (apply (at_id_fun s L H _ _ _ X A)). congruence. }
    subst el0. assert (Ro : row_at L el (pd_upstream p) (pd_index p) (pd_contest p) row).
    { unfold L. rewrite Eh in *. apply row_at_mono; assumption. }
    pose proof (row_at_type _ _ _ _ _ _ Ro) as Rt.
    assert (Er : cts = row).
    { clear -Ct Ro H Rt. unfold t_row in Ct. destruct Ro as [(Q1 & _ & _ & v & ev & Q2 & Q3 & ->)|(Q1 & _ & m & Q2 & _ & _ & Q3)]; rewrite Q1 in Ct.
      - apply bind_ok in Ct as ([v' g] & B & D). apply map_err_ok in B.
        assert (X : at_id L (pd_upstream p) (XVote v')) by (apply (typed_at s L H as_vote XVote TVote _ _ as_vote_iff); eauto).
        assert (X' : XVote v' = XVote v) by (apply (at_id_fun s L H _ _ _ X Q2)). injection X' as ->. cbn [fst] in D.
        assert (P : forall e, u_eqb (ev_contest e) (pd_contest p) = true <-> ev_contest e = pd_contest p) by (intros; apply u_eqb_eq).
        apply (find_first _ _ _ _ P) in Q3. rewrite Q3 in D. congruence.
      - apply bind_ok in Ct as ([m' g] & B & D). apply map_err_ok in B.
        assert (X : at_id L (pd_upstream p) (XMix m')) by (apply (typed_at s L H as_mix XMix TMix _ _ as_mix_iff); eauto).
        assert (X' : XMix m' = XMix m) by (apply (at_id_fun s L H _ _ _ X Q2)). injection X' as ->. cbn [fst] in D.
        apply or_panic_ok in D. congruence. }
    subst cts.
    (* every entry of the range is the partial decryption of its trustee for this slot *)
    assert (Each : Forall2 (fun i q => (exists tr, In tr (el_trustees el) /\ tr_index tr = i)
        /\ at_id L (partial_build_id (el_id el) (pd_upstream p) (pd_contest p) (pd_index p) i) (XPartial q))
        (map pd_trustee parts) parts /\ length parts = length (between L start stop)).
    { assert (G : forall y, In y (between L start stop) -> In y h /\ id_le start (s_id y) /\ id_le (s_id y) stop).
      { intros y Iy. unfold between in Iy. apply filter_In in Iy as [Iy F]. apply andb_prop in F as [F1 F2].
        split; [apply (hist_stored dbg h y Hh), Iy|]. unfold id_le.
        destruct (id_cmp start (s_id y)), (id_cmp (s_id y) stop); (discriminate || (split; discriminate)). }
      revert parts Pa Th Se P. generalize (between L start stop) as range, G. clear -V3 T0 Hh H A Ei Rt.
      intros range G parts Pa _ _ _. revert parts Pa. induction range as [|y range IH]; intros parts Pa; cbn [map_res] in Pa.
      { injection Pa as <-. split; [constructor|reflexivity]. }
      apply bind_ok in Pa as (q & Q & Pa). apply bind_ok in Pa as (qs & Qs & Pa). injection Pa as <-.
      destruct (IH (fun z Iz => G z (or_intror Iz)) _ Qs) as [IH1 IH2]. cbn [map length]. split; [|rewrite IH2; reflexivity].
      constructor; [|exact IH1]. unfold into_typed in Q. apply or_panic_ok in Q.
      assert (Ty : s_tx y = XPartial q) by (destruct (s_tx y); cbn in Q; congruence). clear Q IH IH1 IH2 Qs.
      destruct (G y (or_introl eq_refl)) as (Iy & G1 & G2). clear G.
      destruct (slot_between _ _ _ _ G1 G2) as (S1 & S2 & S3).
      assert (Eid : s_id y = pd_id q) by (unfold s_id; rewrite Ty; reflexivity). rewrite Eid in S1, S2, S3.
      destruct (hist_accepted dbg h y Hh Iy) as (pre & post & Eh & Hpre & _ & V).
      apply (partial_accepted dbg _ _ y q (stored_holds pre) Ty) in V as (el1 & row1 & pk1 & W1 & W2 & W3 & _ & W5 & _).
      apply row_at_type in W5. rewrite W3 in S1. cbn [partial_build_id id_new id_election] in S1.
      assert (W1' : at_id h (pd_election q) (XElection el1)).
      { rewrite Eh. apply at_id_mono, (hist_at_id _ _ _ Hpre), W1. }
      assert (Ah : at_id h (pd_election p) (XElection el)) by (apply (hist_at_id _ _ _ Hh), A).
      assert (Ee : pd_election q = pd_election p).
      { rewrite (hist_election_slot _ _ _ Hh W1'), (hist_election_slot _ _ _ Hh Ah). unfold slot0. rewrite S1, Ei. reflexivity. }
      rewrite Ee in W1'. apply (hist_at_id _ _ _ Hh) in W1'.
      assert (X' : XElection el1 = XElection el) by (apply (at_id_fun s L H _ _ _ W1' A)). injection X' as ->.
      split.
      - destruct W2 as (tr & B1 & B2 & _). eauto.
      - exists y. split; [apply (hist_stored dbg h y Hh), Iy|]. split; [|exact Ty]. rewrite Eid, W3. unfold partial_build_id. rewrite !id_new_some.
        f_equal; [rewrite S1; reflexivity|]. rewrite <- (with_last_slot _ _ _ (pd_trustee q) (pd_trustee q) W5).
        rewrite <- (with_last_slot _ _ _ (pd_trustee p) (pd_trustee q) Rt). apply with_last_eq.
        rewrite W3, V3 in S3. exact S3. }
    destruct Each as [Each Len].
    eapply (one_valid dbg sk law s L H) in P.
    - destruct P as (y & -> & Ty & V). destruct I as [<-|[]]. eexists. split; [exact Ty|].
      cbn [dc_election dc_upstream dc_contest dc_index]. rewrite Ei. auto.
    - reflexivity.
    - cbn [ok_tx]. exists el, row, pks, parts. cbn [dc_election dc_id dc_upstream dc_contest dc_index dc_trustees dc_vote].
      rewrite Ei in *. split; [exact A|]. split; [reflexivity|]. split; [exact Ro|]. split; [exact Pk|]. split; [exact Each|].
      split; [|exact Se]. rewrite map_length, Len. lia.
  Qed.
End Decrypt.
