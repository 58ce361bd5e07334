(** * RunFacts: what the transactions of an election run by honest nodes are. *)
From Verif Require Import Base BaseFacts Utf8 Cbor Ident BuildId IdentFacts Crypto Types Serde SerdeFacts Store SpecStore StoreFacts
  Prost Validate ValidateFacts SpecValid ValidFacts ValidFacts2 ValidFacts3 SpecHist HistFacts SpecMix MixFacts SpecDecrypt DecryptFacts
  Encrypt Trustee Tasks SpecTasks TasksFacts TasksFacts2 TasksFacts3 SpecService ServiceFacts SpecThreshold ThresholdFacts
  Lagrange Props_Threshold SpecRun.
From Coq Require Import ZifyBool ZifyNat ZifyN Sorting.Permutation Sorting.Sorted.
Open Scope list_scope.

(** ** what a node answers, by type of the answer *)
Section Gen.
  Context {C : Crypto} {TC : TCrypto}.
  Variables (dbg : bool) (sk : ed_secret) (r : Rnd) (s : Store).

  Definition answer (x y : STx) : Prop :=
    match s_tx y with
    | XCommitment c => exists el t, s_tx x = XElection el /\ trustee_from_election el (node_key sk) = Some t
        /\ c = mk_commitment (commitment_build_id (el_id el) (tr_index t)) (el_id el) (tr_index t)
                 (tr_public_key t) (x25519_public sk (el_id el)) (keygen_commitment t sk (el_id el))
    | XShare sh => exists c el t cs m, s_tx x = XCommitment c /\ t_election s (kc_election c) = Ok el
        /\ trustee_from_election el (node_key sk) = Some t
        /\ t_multiple as_commitment s (el_id el) TKeyGenCommitment = Ok cs /\ length cs = length (el_trustees el)
        /\ @generate_shares C TC TaskError t (r_nonce r) sk (x_keys_of cs) (el_id el) (commitments_of cs) = Ok m
        /\ sh = mk_share (share_build_id (el_id el) (tr_index t)) (el_id el) (tr_index t) (tr_public_key t) m
    | XPublicKey p => exists sh el t shs cs shares kp, s_tx x = XShare sh /\ t_election s (ks_election sh) = Ok el
        /\ trustee_from_election el (node_key sk) = Some t
        /\ t_multiple as_share s (el_id el) TKeyGenShare = Ok shs /\ length shs = length (el_trustees el)
        /\ t_multiple as_commitment s (el_id el) TKeyGenCommitment = Ok cs
        /\ @shares_to C TaskError t shs = Ok shares
        /\ generate_public_key t sk (x_keys_of cs) (commitments_of cs) shares (el_id el) = Ok kp
        /\ p = mk_pubkey (pubkey_build_id (el_id el) (tr_index t)) (el_id el) (tr_index t) (tr_public_key t) (fst kp) (snd kp)
    | XEncryptionKey k => exists p el pks, s_tx x = XPublicKey p /\ t_election s (kp_election p) = Ok el
        /\ el_authority el = node_key sk /\ t_multiple as_pubkey s (el_id el) TKeyGenPublicKey = Ok pks
        /\ length pks = length (el_trustees el)
        /\ k = mk_enckey (enckey_build_id (el_id el)) (el_id el) (el_authority el) (kp_key p)
    | XMix m => (exists ve el t k vs n c votes mp, s_tx x = XVotingEnd ve /\ t_election s (ve_election ve) = Ok el
          /\ trustee_from_election el (node_key sk) = Some t /\ el_mix_config el <> None /\ tr_index t = x01
          /\ t_enckey s (el_id el) = Ok k /\ t_multiple as_vote s (el_id el) TVote = Ok vs
          /\ In (c, votes) (contest_votes vs)
          /\ mix (r_mix r n) (map snd votes) (ek_key k) (tr_index t) x00 c (u_of 4 0) = Some mp
          /\ m = mk_mix (mix_build_id (el_id el) c (u_of 4 0) x00 (tr_index t)) (el_id el) None
                   (tr_index t) (tr_public_key t) x00 c (u_of 4 0) (map fst votes) (fst mp) (snd mp))
        \/ (exists m0 el next, s_tx x = XMix m0 /\ t_election s (mx_election m0) = Ok el
          /\ @u8_add TaskError dbg (mx_index m0) x01 = Ok next /\ el_threshold el <> next)
    | XPartial p => exists el t shs cs shares i ds up idx c row, t_election s (el_id el) = Ok el
        /\ trustee_from_election el (node_key sk) = Some t
        /\ t_multiple as_share s (el_id el) TKeyGenShare = Ok shs
        /\ t_multiple as_commitment s (el_id el) TKeyGenCommitment = Ok cs
        /\ @shares_to C TaskError t shs = Ok shares
        /\ partial_shares sk r i 0 t (x_keys_of cs) (commitments_of cs) shares (el_id el) row = Ok ds
        /\ p = mk_partial (partial_build_id (el_id el) up c idx (tr_index t)) (el_id el) up idx c (tr_index t) (node_key sk) ds
        /\ ((exists ve vs v ev, s_tx x = XVotingEnd ve /\ ve_election ve = el_id el /\ el_mix_config el = None
              /\ t_multiple as_vote s (el_id el) TVote = Ok vs /\ In v vs /\ In ev (vt_votes v)
              /\ up = vt_id v /\ idx = u_of 2 0 /\ c = ev_contest ev /\ row = ev_selections ev)
            \/ (exists m j, s_tx x = XMix m /\ mx_election m = el_id el /\ el_mix_config el <> None
              /\ up = mx_id m /\ c = mx_contest m /\ nth_error (mx_out m) j = Some row /\ idx = u_of 2 (N.of_nat j)))
    | XDecryption d => exists p el t parts cts pks sels, s_tx x = XPartial p /\ t_election s (pd_election p) = Ok el
        /\ trustee_from_election el (node_key sk) = Some t
        /\ (exists l, st_range s (mk_id (id_election (el_id el)) TPartialDecryption (with_last (id_unique (pd_id p)) x00))
                       (mk_id (id_election (el_id el)) TPartialDecryption (with_last (id_unique (pd_id p)) xff)) = Ok l
            /\ N.to_nat (u8v (el_threshold el)) <= length l /\ @map_res TaskError _ _ (into_typed as_partial) l = Ok parts)
        /\ t_row s p = Ok cts
        /\ t_multiple as_pubkey s (el_id el) TKeyGenPublicKey = Ok pks
        /\ decrypt_vote cts (el_threshold el) (el_trustees el) pks parts = Ok sels
        /\ d = mk_decryption (decryption_build_id (el_id el) (pd_upstream p) (pd_contest p) (pd_index p))
                 (el_id el) (pd_upstream p) (pd_index p) (pd_contest p) (map pd_trustee parts) sels
    | _ => False
    end.

  Lemma tsign_tx t x : tsign sk t = Ok x -> s_tx x = t /\ x = mk_stx t (ed_sign sk (tx_bytes t))
    /\ forall k, tx_public t = Some k -> k = node_key sk.
  Proof. intros E. unfold tsign in E. apply map_err_ok, sign_ok in E as [-> K]. auto. Qed.
  Lemma one_tx t l y : one sk t = Ok l -> In y l -> s_tx y = t.
  Proof.
    intros E I. unfold one in E. apply bind_ok in E as (x & A & E). injection E as <-. destruct I as [<-|[]].
    apply (tsign_tx _ _ A).
  Qed.
  Lemma one_ex t l : one sk t = Ok l -> exists x, l = [x] /\ s_tx x = t.
  Proof.
    intros E. unfold one in E. apply bind_ok in E as (x & A & E). injection E as <-. exists x. split; [reflexivity|].
    apply (tsign_tx _ _ A).
  Qed.
  Lemma t_election_id i el : t_election s i = Ok el -> forall L, holds s L -> el_id el = i.
  Proof. intros E L H. apply (t_election_iff s L H) in E. apply (at_election_id L _ _ E). Qed.

  Lemma gen_inv x l y L : holds s L -> generate_transactions dbg sk r s x = Ok l -> In y l -> answer x y.
  Proof.
    intros H G I. unfold generate_transactions in G. unfold answer.
    destruct (s_tx x) as [t|t|t|t|t|t|t|t|t|t] eqn:Tx; try (injection G as <-; destruct I).
    - unfold process_election in G. destruct (trustee_from_election t (node_key sk)) as [tr|] eqn:Tr; [|injection G as <-; destruct I].
      rewrite (one_tx _ _ _ G I). exists t, tr. auto.
    - unfold process_keygen_commitment in G. apply bind_ok in G as (el & A & G).
      destruct (trustee_from_election el (node_key sk)) as [tr|] eqn:Tr; [|injection G as <-; destruct I].
      apply bind_ok in G as (cs & B & G). destruct (Nat.eqb _ _) eqn:Le; [|injection G as <-; destruct I]. apply Nat.eqb_eq in Le.
      apply bind_ok in G as (m & D & G). rewrite (one_tx _ _ _ G I). exists t, el, tr, cs, m. auto 10.
    - unfold process_keygen_share in G. apply bind_ok in G as (el & A & G).
      destruct (trustee_from_election el (node_key sk)) as [tr|] eqn:Tr; [|injection G as <-; destruct I].
      apply bind_ok in G as (shs & B & G). destruct (Nat.eqb _ _) eqn:Le; cbn [negb] in G; [|injection G as <-; destruct I].
      apply Nat.eqb_eq in Le. apply bind_ok in G as (cs & D & G). apply bind_ok in G as (shares & E & G).
      apply bind_ok in G as (kp & F & G). apply map_err_ok in F. rewrite (one_tx _ _ _ G I).
      exists t, el, tr, shs, cs, shares, kp. auto 12.
    - unfold process_keygen_public_key in G. apply bind_ok in G as (el & A & G).
      destruct (pk_eqb _ _) eqn:K; [|injection G as <-; destruct I]. apply pk_eqb_eq in K.
      apply bind_ok in G as (pks & B & G). destruct (Nat.eqb _ _) eqn:Le; [|injection G as <-; destruct I]. apply Nat.eqb_eq in Le.
      rewrite (one_tx _ _ _ G I). exists t, el, pks. auto 10.
    - unfold process_voting_end in G. apply bind_ok in G as (el & A & G). pose proof (t_election_id _ _ A _ H) as Ei.
      destruct (trustee_from_election el (node_key sk)) as [tr|] eqn:Tr; [|injection G as <-; destruct I].
      destruct (el_mix_config el) as [mc|] eqn:M.
      + destruct (Byte.eqb _ _) eqn:Ix; [|injection G as <-; destruct I]. apply byte_eqb_eq in Ix.
        apply bind_ok in G as (k & K & G). apply bind_ok in G as (vs & V & G).
        destruct (first_mixes_in sk r _ _ _ _ _ _ _ G I) as (n & c & votes & mp & J & Mx & X). apply tsign_tx in X as (-> & _).
        left. exists t, el, tr, k, vs, n, c, votes, mp. split; [reflexivity|]. split; [exact A|]. split; [exact Tr|]. split; [congruence|].
        auto 10.
      + destruct (el_contests el) as [|c0 cs0]; [injection G as <-; destruct I|].
        unfold produce_partials in G. apply bind_ok in G as (shs & S1 & G). apply bind_ok in G as (cs & Cs & G).
        apply bind_ok in G as (shares & Sh & G). apply bind_ok in G as (vs & V & G). apply partials_from_in in G.
        destruct (Forall2_in_l _ _ _ _ G I) as ([[[up idx] c] row] & J & i & ds & D & X). apply tsign_tx in X as (-> & _).
        apply in_flat_map in J as (v & Iv & J). unfold vote_sources in J. apply in_map_iff in J as (ev & J & Ie). injection J as <- <- <- <-.
        cbn [partial_tx]. exists el, tr, shs, cs, shares, i, ds, (vt_id v), (u_of 2 0), (ev_contest ev), (ev_selections ev).
        rewrite <- Ei in A. split; [exact A|]. split; [exact Tr|]. split; [exact S1|]. split; [exact Cs|]. split; [exact Sh|].
        split; [exact D|]. split; [reflexivity|]. left. exists t, vs, v, ev. auto 12.
    - unfold process_mix in G. apply bind_ok in G as (el & A & G). pose proof (t_election_id _ _ A _ H) as Ei.
      destruct (trustee_from_election el (node_key sk)) as [tr|] eqn:Tr; [|injection G as <-; destruct I].
      destruct (el_mix_config el) as [mc|] eqn:M; [|injection G as <-; destruct I].
      apply bind_ok in G as (nx & Nx & G). destruct (Byte.eqb (el_threshold el) nx) eqn:Th.
      + unfold produce_partials in G. apply bind_ok in G as (shs & S1 & G). apply bind_ok in G as (cs & Cs & G).
        apply bind_ok in G as (shares & Sh & G). apply partials_from_in in G.
        destruct (Forall2_in_l _ _ _ _ G I) as (src & J & Q). apply rows_from_nth in J as (j & row & J & ->). rewrite N.add_0_l in Q.
        destruct Q as (i & ds & D & X). apply tsign_tx in X as (-> & _). cbn [partial_tx].
        exists el, tr, shs, cs, shares, i, ds, (mx_id t), (u_of 2 (N.of_nat j)), (mx_contest t), row.
        rewrite <- Ei in A. split; [exact A|]. split; [exact Tr|]. split; [exact S1|]. split; [exact Cs|]. split; [exact Sh|].
        split; [exact D|]. split; [reflexivity|]. right. exists t, j. split; [reflexivity|]. split; [auto|]. split; [congruence|]. auto 10.
      + apply bind_ok in G as (turn & Tn & G). destruct (Byte.eqb (tr_index tr) turn); [|injection G as <-; destruct I].
        apply bind_ok in G as (k & K & G). apply bind_ok in G as (mp & Mp & G). rewrite (one_tx _ _ _ G I).
        right. exists t, el, nx. split; [reflexivity|]. split; [exact A|]. split; [exact Nx|]. intros Z. apply byte_eqb_eq in Z. congruence.
    - unfold process_partial_decryption in G. apply bind_ok in G as (el & A & G).
      destruct (trustee_from_election el (node_key sk)) as [tr|] eqn:Tr; [|injection G as <-; destruct I].
      apply bind_ok in G as (range & Ra & G). destruct (Nat.leb _ _) eqn:Le; [|injection G as <-; destruct I]. apply Nat.leb_le in Le.
      apply bind_ok in G as (parts & Pa & G). apply bind_ok in G as (cts & Ct & G). apply bind_ok in G as (pks & Pk & G).
      apply bind_ok in G as (sels & Se & G). apply map_err_ok in Se. rewrite decrypt_vote_full in Se. rewrite (one_tx _ _ _ G I).
      exists t, el, tr, parts, cts, pks, sels. split; [reflexivity|]. split; [exact A|]. split; [exact Tr|].
      split; [|auto 10]. exists range. split; [|auto]. destruct (st_range s _ _) as [a|a|a]; [injection Ra as ->; reflexivity|destruct a|discriminate Ra].
  Qed.
End Gen.

(** ** lists sorted by a strict order *)
Section Sorted.
  Context {A} (f : A -> N).
  Notation lt := (fun a b => (f a < f b)%N).
  Lemma sorted_from (T : list A) : (forall a p b q d, T = a ++ p :: b ++ q :: d -> lt p q) -> StronglySorted lt T.
  Proof.
    induction T as [|x T IH]; intros H; [constructor|]. constructor.
    - apply IH. intros a p b q d E. apply (H (x :: a) p b q d). cbn [app]. rewrite E. reflexivity.
    - apply Forall_forall. intros q I. apply in_split in I as (b & d & E). apply (H [] x b q d). rewrite E. reflexivity.
  Qed.
  Lemma sorted_nodup l : StronglySorted lt l -> NoDup l.
  Proof.
    induction 1 as [|a l _ IH F]; constructor; [|exact IH]. intros I. rewrite Forall_forall in F. specialize (F a I). lia.
  Qed.
  Lemma sorted_incl_eq l2 : forall l1, StronglySorted lt l1 -> StronglySorted lt l2 -> incl l1 l2 -> length l1 = length l2 -> l1 = l2.
  Proof.
    induction l2 as [|b l2 IH]; intros l1 S1 S2 I E; [destruct l1; [reflexivity|discriminate]|].
    destruct l1 as [|a l1]; [discriminate|]. pose proof (sorted_nodup _ S1) as N1.
    inversion S1 as [|? ? S1' F1]; inversion S2 as [|? ? S2' F2]; subst. rewrite Forall_forall in F1, F2.
    destruct (I a (or_introl eq_refl)) as [->|Ia].
    - f_equal. apply IH; [assumption|assumption| |cbn in E; lia]. intros x Ix. destruct (I x (or_intror Ix)) as [->|J]; [|exact J].
      specialize (F1 _ Ix). lia.
    - exfalso. assert (J : incl (a :: l1) l2).
      { intros x [<-|Ix]; [exact Ia|]. destruct (I x (or_intror Ix)) as [->|J]; [|exact J].
        specialize (F1 _ Ix). specialize (F2 _ Ia). lia. }
      apply NoDup_incl_length in J; [|exact N1]. cbn in *. lia.
  Qed.
End Sorted.

Lemma choose {A B} (P : B -> A -> Prop) l : (forall a, In a l -> exists b, P b a) -> exists m, Forall2 P m l.
Proof.
  induction l as [|a l IH]; intros H; [exists []; constructor|]. destruct (H a (or_introl eq_refl)) as (b & B1).
  destruct IH as (m & M1); [intros; apply H; right; assumption|]. exists (b :: m). constructor; assumption.
Qed.
Lemma first_byte_lt e ty i j : id_lt (mk_id e ty (first_byte i)) (mk_id e ty (first_byte j)) -> (u8v i < u8v j)%N.
Proof.
  unfold id_lt, id_cmp. cbn [id_election id_type id_unique]. rewrite lex_refl, byte_cmp_refl. unfold first_byte, arr1.
  cbn [arr_app arr_l app lex]. unfold byte_cmp. destruct (N.compare_spec (u8v i) (u8v j)) as [E|E|E]; intros X; try discriminate X. exact E.
Qed.
Lemma first_byte_inj i j : first_byte i = first_byte j -> i = j.
Proof. intros E. apply (arr_app_inj (n:=1)) in E as [E _]. apply (f_equal arr_l) in E. cbn in E. congruence. Qed.

Lemma Forall2_impl {X Y} (P Q : X -> Y -> Prop) l m : (forall a b, P a b -> Q a b) -> Forall2 P l m -> Forall2 Q l m.
Proof. intros H F. induction F; constructor; auto. Qed.

Lemma Forall2_fun {X Y} (P : X -> Y -> Prop) l m m' : (forall a b b', P a b -> P a b' -> b = b') ->
  Forall2 P l m -> Forall2 P l m' -> m = m'.
Proof.
  intros H F. revert m'. induction F as [|a b l m Pa F IH]; intros m' G; inversion G; subst; [reflexivity|].
  f_equal; [eapply H; eauto|apply IH; assumption].
Qed.
Lemma Forall2_both {X Y} (P Q : X -> Y -> Prop) l m : Forall2 P l m -> Forall2 Q l m -> Forall2 (fun a b => P a b /\ Q a b) l m.
Proof. intros F. induction F; intros G; inversion G; subst; constructor; auto. Qed.

Lemma Forall2_mem {X Y} (P : X -> Y -> Prop) l m : Forall2 P l m -> Forall2 (fun a b => In a l /\ In b m /\ P a b) l m.
Proof.
  intros F. induction F as [|a b l m Pa F IH]; constructor; [repeat split; try left; auto|].
  revert IH. apply Forall2_impl. intros x y (I & J & K). repeat split; try right; auto.
Qed.

Section Run.
  Context {C : Crypto} {TC : TCrypto} {K : Fld} {M : Mdl} (S : threshold_scheme K M).
  Context (DH : dh_agrees) (Op : gcm_opens) (Sc : scalar_faithful) (law : ed_sign_verifies).
  Context {R : Type} (eg : EGPublicKey -> R -> bytes -> Ciphertext * R) (En : encrypting S eg).
  Variables (dbg : bool) (el : ElectionTx) (T : people) (contests : list u32).
  Hypothesis SU : set_up el T contests.
  Notation e := (el_id el).
  Notation inside := (inside el).
  Notation honest := (honest eg dbg el T contests).
  Notation node := (node el T).
  Notation A := (joint_key S T e).
  Notation idx p := (tr_index (fst p)).

  (** *** the trustees *)
  Lemma number : length (el_trustees el) = length T.
  Proof. pose proof (Permutation_length (su_listed _ _ _ SU)) as E. rewrite !map_length in E. auto. Qed.
  Lemma indices : Permutation (map tr_index (el_trustees el)) (map (fun p => idx p) T).
  Proof.
    pose proof (Permutation_map fst (su_listed _ _ _ SU)) as E. rewrite !map_map in E. cbn [fst] in E. symmetry. exact E.
  Qed.
  Lemma listed_T p : In p T -> lists_trustee el (idx p) (tr_public_key (fst p)).
  Proof.
    intros I. assert (J : In (idx p, tr_public_key (fst p)) (map (fun t => (tr_index t, tr_public_key t)) (el_trustees el))).
    { apply (Permutation_in _ (su_listed _ _ _ SU)), in_map_iff. exists p. auto. }
    apply in_map_iff in J as (t & E & J). injection E as E1 E2. exists t. auto.
  Qed.
  Lemma T_listed i k : lists_trustee el i k -> exists p, In p T /\ idx p = i /\ tr_public_key (fst p) = k.
  Proof.
    intros (t & I & <- & <-).
    assert (J : In (tr_index t, tr_public_key t) (map (fun p => (idx p, tr_public_key (fst p))) T)).
    { apply (Permutation_in _ (Permutation_sym (su_listed _ _ _ SU))), in_map_iff. exists t. auto. }
    apply in_map_iff in J as (p & E & J). injection E as E1 E2. eauto.
  Qed.
  Lemma T_key p q : In p T -> In q T -> tr_public_key (fst p) = tr_public_key (fst q) -> p = q.
  Proof. intros I J E. apply (nodup_map_eq (fun p => tr_public_key (fst p)) T); auto. apply (su_distinct _ _ _ SU). Qed.
  Lemma T_idx p q : In p T -> In q T -> idx p = idx q -> p = q.
  Proof. intros I J E. apply (nodup_map_eq (fun p => idx p) T); auto. apply (ce_distinct _ _ (su_ceremony _ _ _ SU)). Qed.
  Lemma full_T t k : trustee_from_election el k = Some t -> exists p, In p T /\ fst p = t /\ tr_public_key t = k.
  Proof.
    intros F. pose proof (full_acts el k t F) as (_ & P & L). destruct (T_listed _ _ L) as (p & I & E1 & E2).
    exists p. split; [exact I|]. split; [|exact P]. apply full_first in F as (t0 & _ & ->). cbn [tr_index tr_public_key] in *.
    pose proof (ce_number _ _ (su_ceremony _ _ _ SU) p I) as N. pose proof (ce_threshold _ _ (su_ceremony _ _ _ SU) p I) as Th.
    destruct (fst p) as [k' i' n' th']. cbn [tr_index tr_public_key tr_num tr_threshold] in *. subst k' i' th'. f_equal; [congruence|].
    rewrite number, <- N. symmetry. apply u_of_uv.
  Qed.
  Lemma T_full p : In p T -> trustee_from_election el (node_key (snd p)) = Some (fst p).
  Proof.
    intros I. destruct (full_some el (node_key (snd p))) as (t & F).
    { destruct (listed_T p I) as (t & J & _ & E). exists t. split; [exact J|]. rewrite E. apply (su_keys _ _ _ SU p I). }
    destruct (full_T _ _ F) as (q & J & <- & E). rewrite F. f_equal. f_equal. apply T_key; [exact J|exact I|].
    rewrite E. symmetry. apply (su_keys _ _ _ SU p I).
  Qed.
  Lemma node_T sk t : node sk -> trustee_from_election el (node_key sk) = Some t -> In (t, sk) T.
  Proof.
    intros [(p & I & <-)|[_ H]] F.
    - rewrite (T_full p I) in F. injection F as <-. destruct p. exact I.
    - destruct (full_T _ _ F) as (p & I & <- & E). rewrite <- (H p I E). destruct p. exact I.
  Qed.
  Lemma T_sorted : StronglySorted (fun p q : Trustee * ed_secret => (u8v (idx p) < u8v (idx q))%N) T.
  Proof. apply (sorted_from (fun p => u8v (idx p))). apply (su_order _ _ _ SU). Qed.

  (** *** listings by trustee *)
  Lemma listing {B} (mk : B -> Tx) (ty : TxType) (Q : Trustee * ed_secret -> B -> Prop) h l :
    history dbg h -> range_is (stored h) e ty mk l ->
    (forall x a, In x h -> inside x -> s_tx x = mk a -> exists p, In p T /\ Q p a) ->
    (forall p a, Q p a -> tx_id (mk a) = mk_id (id_election e) ty (first_byte (idx p))) ->
    (forall a, In a l -> exists p, In p T /\ Q p a /\ at_id h (tx_id (mk a)) (mk a))
    /\ (length l = length T -> Forall2 (fun p a => Q p a /\ at_id h (tx_id (mk a)) (mk a)) T l).
  Proof.
    intros Hh Ra Src Id.
    assert (Each : forall a, In a l -> exists p, In p T /\ Q p a /\ at_id h (tx_id (mk a)) (mk a)).
    { intros a Ia. assert (J : In (mk a) (map s_tx (listed (stored h) e ty))) by (rewrite Ra; apply in_map, Ia).
      apply in_map_iff in J as (x & Ex & Ix). apply listed_in in Ix as (Ix & I1 & I2). apply (hist_stored dbg h x Hh) in Ix.
      destruct (Src x a Ix I1 Ex) as (p & Ip & Qp). exists p. split; [exact Ip|]. split; [exact Qp|].
      exists x. split; [exact Ix|]. split; [unfold s_id; rewrite Ex; reflexivity|exact Ex]. }
    split; [exact Each|]. intros Len.
    destruct (choose (fun p a => In p T /\ Q p a /\ at_id h (tx_id (mk a)) (mk a)) l Each) as (ps & F).
    assert (Eq : ps = T); [|subst ps; clear -F; induction F as [|? ? ? ? (_ & ?) ? ?]; constructor; assumption].
    apply (sorted_incl_eq (fun p : Trustee * ed_secret => u8v (idx p))).
    - pose proof (listed_asc (stored h) e ty (stored_asc h)) as As. unfold range_is in Ra. clear Len Each Src.
      assert (Es : map s_id (listed (stored h) e ty) = map (fun p => mk_id (id_election e) ty (first_byte (idx p))) ps).
      { transitivity (map tx_id (map s_tx (listed (stored h) e ty))); [rewrite map_map; reflexivity|]. rewrite Ra, map_map.
        clear -F Id. induction F as [|p a ps l (_ & Qp & _) _ IH]; [reflexivity|]. cbn [map]. rewrite IH, (Id p a Qp). reflexivity. }
      clear -As Es. revert ps Es. induction As as [|x L As IH Fx]; intros [|p ps] Es; try discriminate Es; constructor.
      + apply IH. injection Es as _ Es. exact Es.
      + injection Es as E1 Es. apply Forall_forall. intros q Iq. rewrite Forall_forall in Fx.
        assert (J : In (mk_id (id_election e) ty (first_byte (idx q))) (map s_id L)).
        { rewrite Es. apply in_map_iff. exists q. auto. }
        apply in_map_iff in J as (y & Ey & Iy). specialize (Fx y Iy). rewrite E1, Ey in Fx. apply (first_byte_lt _ _ _ _ Fx).
    - apply T_sorted.
    - intros p Ip. destruct (Forall2_in_l _ _ _ _ F Ip) as (a & _ & J & _). exact J.
    - rewrite <- Len. clear -F. induction F; cbn; congruence.
  Qed.

  Lemma listing_full {B} (mk : B -> Tx) (ty : TxType) (Q : Trustee * ed_secret -> B -> Prop) h l :
    history dbg h -> range_is (stored h) e ty mk l ->
    (forall x a, In x h -> inside x -> s_tx x = mk a -> exists p, In p T /\ Q p a) ->
    (forall p a, Q p a -> tx_id (mk a) = mk_id (id_election e) ty (first_byte (idx p))) ->
    (forall p, In p T -> occupied h (mk_id (id_election e) ty (first_byte (idx p)))) -> length l = length T.
  Proof.
    intros Hh Ra Src Id D. destruct (listing mk ty Q h l Hh Ra Src Id) as [L1 _].
    assert (Es : map s_id (listed (stored h) e ty) = map (fun a => tx_id (mk a)) l).
    { transitivity (map tx_id (map s_tx (listed (stored h) e ty))); [rewrite map_map; reflexivity|]. rewrite Ra, map_map. reflexivity. }
    assert (P : Permutation (map (fun a => tx_id (mk a)) l) (map (fun p => mk_id (id_election e) ty (first_byte (idx p))) T)).
    { apply NoDup_Permutation.
      - rewrite <- Es. apply asc_nodup, listed_asc, stored_asc.
      - rewrite <- (map_map (fun p => idx p) (fun i => mk_id (id_election e) ty (first_byte i))).
        apply FinFun.Injective_map_NoDup; [|apply (ce_distinct _ _ (su_ceremony _ _ _ SU))].
        intros i j Eij. apply (f_equal id_unique) in Eij. apply first_byte_inj, Eij.
      - intros i. split; intros J.
        + apply in_map_iff in J as (a & <- & J). destruct (L1 a J) as (p & Ip & Qp & _). rewrite (Id p a Qp).
          apply in_map_iff. exists p. auto.
        + apply in_map_iff in J as (p & <- & J). destruct (D p J) as (x & Ix & Ex). rewrite <- Es. apply in_map_iff. exists x.
          split; [exact Ex|]. apply listed_in. split; [apply (hist_stored dbg h x Hh), Ix|]. rewrite Ex. auto. }
    apply Permutation_length in P. rewrite !map_length in P. exact P.
  Qed.

  (** *** where the transactions of the election come from *)
  Definition from_node (h : list STx) (y : STx) : Prop :=
    exists h1 h2 sk r x l, h = h1 ++ h2 /\ node sk /\ In x h1 /\ inside x
      /\ generate_transactions dbg sk r (ms_store (ms_from h1)) x = Ok l /\ In y l.
  Lemma provenance h y : honest h -> In y h -> inside y ->
    s_tx y = XElection el
    \/ (exists a b v, h = a ++ y :: b /\ s_tx y = XVote v /\ voter eg el contests a v)
    \/ (exists a b ve, h = a ++ y :: b /\ s_tx y = XVotingEnd ve /\ ve_election ve = e /\ ve_id ve = slot0 e TVotingEnd
          /\ exists k, at_id a (slot0 e TEncryptionKey) (XEncryptionKey k))
    \/ exists a b, h = a ++ y :: b /\ from_node a y.
  Proof.
    intros Ho. assert (More : forall h x y,
      (s_tx y = XElection el
        \/ (exists a b v, h = a ++ y :: b /\ s_tx y = XVote v /\ voter eg el contests a v)
        \/ (exists a b ve, h = a ++ y :: b /\ s_tx y = XVotingEnd ve /\ ve_election ve = e /\ ve_id ve = slot0 e TVotingEnd
              /\ exists k, at_id a (slot0 e TEncryptionKey) (XEncryptionKey k))
        \/ exists a b, h = a ++ y :: b /\ from_node a y) ->
      (s_tx y = XElection el
        \/ (exists a b v, h ++ [x] = a ++ y :: b /\ s_tx y = XVote v /\ voter eg el contests a v)
        \/ (exists a b ve, h ++ [x] = a ++ y :: b /\ s_tx y = XVotingEnd ve /\ ve_election ve = e /\ ve_id ve = slot0 e TVotingEnd
              /\ exists k, at_id a (slot0 e TEncryptionKey) (XEncryptionKey k))
        \/ exists a b, h ++ [x] = a ++ y :: b /\ from_node a y)).
    { intros h0 x z [D|[(a & b & v & -> & D)|[(a & b & ve & -> & D)|(a & b & -> & D)]]]; [auto| | |].
      - right; left. exists a, (b ++ [x]), v. split; [rewrite <- app_assoc; reflexivity|exact D].
      - right; right; left. exists a, (b ++ [x]), ve. split; [rewrite <- app_assoc; reflexivity|exact D].
      - right; right; right. exists a, (b ++ [x]). split; [rewrite <- app_assoc; reflexivity|exact D]. }
    induction Ho as [h x Hh Out Tx _ _|h x Ho IH [Out _] _ _|h x v Ho IH Tx V _ _|h x ve Ho IH Tx V1 V2 Ke _ _
                    |h1 h2 sk r x l z Ho IH Nd Ix In1 G Iz _]; intros I Ins.
    - apply in_app_or in I as [I|[<-|[]]]; [|left; exact Tx]. destruct (Out y I) as [O _]. contradiction.
    - apply in_app_or in I as [I|[<-|[]]]; [|contradiction]. apply More, IH; assumption.
    - apply in_app_or in I as [I|[<-|[]]]; [apply More, IH; assumption|]. right; left. exists h, [], v. auto.
    - apply in_app_or in I as [I|[<-|[]]]; [apply More, IH; assumption|]. right; right; left. exists h, [], ve. auto 10.
    - apply in_app_or in I as [I|[<-|[]]]; [apply More, IH; assumption|]. right; right; right. exists (h1 ++ h2), [].
      split; [reflexivity|]. exists h1, h2, sk, r, x, l. auto 10.
  Qed.

  Lemma honest_prefix h2 : forall h1 x, honest (h1 ++ h2) -> In x h1 -> inside x -> honest h1.
  Proof.
    induction h2 as [|z h2 IH] using rev_ind; intros h1 x Ho I Ins; [rewrite app_nil_r in Ho; exact Ho|].
    rewrite app_assoc in Ho. apply (IH h1 x); [|exact I|exact Ins].
    inversion Ho as [h0 x0 Hh Out Tx F V E|h0 x0 Ho' Out F V E|h0 x0 v Ho' Tx Vo F V E|h0 x0 ve Ho' Tx V1 V2 Ke F V E
                    |a b sk r x0 l y Ho' Nd Ix In1 G Iz F E]; apply app_inj_tail in E as [E _]; try (rewrite <- E; assumption).
    rewrite E in Out. destruct (Out x) as [O _]; [apply in_or_app; left; exact I|]. contradiction.
  Qed.
  Lemma has_election h : honest h -> exists x, In x h /\ s_tx x = XElection el.
  Proof.
    induction 1 as [h x Hh Out Tx _ _|h x Ho IH [Out _] _ _|h x v Ho IH Tx V _ _|h x ve Ho IH Tx V1 V2 Ke _ _
                    |h1 h2 sk r x l z Ho IH Nd Ix In1 G Iz _];
      [exists x; split; [apply in_or_app; right; left; reflexivity|exact Tx]| | | |];
      destruct IH as (y & I & Ty); exists y; (split; [apply in_or_app; left; exact I|exact Ty]).
  Qed.
  Lemma election_at h : honest h -> at_id h e (XElection el).
  Proof.
    intros Ho. destruct (has_election h Ho) as (x & I & Tx). exists x. split; [exact I|]. split; [unfold s_id; rewrite Tx; reflexivity|exact Tx].
  Qed.
  Lemma at_fun h i t u : history dbg h -> at_id h i t -> at_id h i u -> t = u.
  Proof.
    intros Hh (x & I & E & <-) (y & J & F & <-). f_equal. apply (hist_unique dbg h); auto. congruence.
  Qed.
  Lemma find_election h i el' : honest h -> history dbg h -> i = e ->
    t_election (ms_store (ms_from h)) i = Ok el' -> el' = el.
  Proof.
    intros Ho Hh -> E. apply (t_election_iff _ _ (stored_holds h)), (hist_at_id dbg _ _ _ Hh) in E.
    pose proof (at_fun _ _ _ _ Hh E (election_at _ Ho)) as X. congruence.
  Qed.

  (** [y] is what a node answers to a transaction of the election *)
  Definition ans (h : list STx) (y : STx) : Prop :=
    exists sk r x, node sk /\ In x h /\ inside x /\ answer dbg sk r (ms_store (ms_from h)) x y.
  (** what an inside transaction that is neither the election, a vote nor the voting end is *)
  Definition answer_in (h : list STx) (y : STx) : Prop :=
    exists h1 h2, h = h1 ++ h2 /\ honest h1 /\ history dbg h1 /\ ans h1 y /\ length h1 < length h.
  Lemma inside_answer h y : honest h -> history dbg h -> In y h -> inside y ->
    match s_tx y with XElection t => t = el | XVote _ | XVotingEnd _ => True | _ => answer_in h y end.
  Proof.
    intros Ho Hh I Ins.
    destruct (provenance h y Ho I Ins) as [->|[(a & b & v & _ & -> & _)|[(a & b & ve & _ & -> & _)|(a & b & -> & F)]]]; [reflexivity|exact Logic.I|exact Logic.I|].
    assert (D : answer_in (a ++ y :: b) y).
    { destruct F as (h1 & h2 & sk & r & x & l & -> & Nd & Ix & In1 & G & Iy). rewrite <- app_assoc in Ho, Hh. exists h1, (h2 ++ y :: b).
      split; [rewrite <- app_assoc; reflexivity|].
      split; [apply (honest_prefix _ h1 x Ho Ix In1)|]. split; [apply (hist_prefix dbg _ _ Hh)|].
      split; [|rewrite !app_length; cbn [length]; lia].
      exists sk, r, x. repeat (split; [assumption|]). apply (gen_inv dbg sk r _ x l y _ (stored_holds h1) G Iy). }
    pose proof D as D'. destruct D as (h1 & h2 & _ & _ & _ & (sk & r & x & _ & _ & _ & An) & _). unfold answer in An.
    destruct (s_tx y); auto; contradiction.
  Qed.
  Lemma inside_election h y t : honest h -> history dbg h -> In y h -> inside y -> s_tx y = XElection t -> t = el.
  Proof. intros Ho Hh I Ins E. pose proof (inside_answer h y Ho Hh I Ins) as X. rewrite E in X. exact X. Qed.
  Lemma grow (h1 h2 : list STx) x : In x h1 -> In x (h1 ++ h2).
  Proof. intros I. apply in_or_app. left. exact I. Qed.

  (** *** commitments *)
  Definition com_tx (p : Trustee * ed_secret) : CommitmentTx :=
    mk_commitment (commitment_build_id e (idx p)) e (idx p) (tr_public_key (fst p)) (x25519_public (snd p) e) (keygen_commitment (fst p) (snd p) e).
  Lemma ans_commitment h1 y c : honest h1 -> history dbg h1 -> ans h1 y -> s_tx y = XCommitment c ->
    exists p, In p T /\ c = com_tx p.
  Proof.
    intros Ho1 Hh1 (sk & r & x & Nd & Ix & In1 & An) E. unfold answer in An. rewrite E in An.
    destruct An as (el' & t & Tx & Tr & ->). apply (inside_election h1 x el' Ho1 Hh1 Ix In1) in Tx. subst el'.
    exists (t, sk). split; [apply (node_T sk t Nd Tr)|]. reflexivity.
  Qed.
  Lemma inside_commitment h y c : honest h -> history dbg h -> In y h -> inside y -> s_tx y = XCommitment c ->
    exists p, In p T /\ c = com_tx p.
  Proof.
    intros Ho Hh I Ins E. pose proof (inside_answer h y Ho Hh I Ins) as X. rewrite E in X.
    destruct X as (h1 & h2 & -> & Ho1 & Hh1 & An & _). pose proof (ans_commitment h1 y c Ho1 Hh1 An E) as X.
    exact X.
  Qed.
  Definition coms_done (h : list STx) : Prop :=
    forall p, In p T -> at_id h (commitment_build_id e (idx p)) (XCommitment (com_tx p)).
  Lemma done_mono h1 h2 : coms_done h1 -> coms_done (h1 ++ h2).
  Proof. intros D p I. apply at_id_mono, D, I. Qed.
  Lemma list_commitments h cs : honest h -> history dbg h ->
    t_multiple as_commitment (ms_store (ms_from h)) e TKeyGenCommitment = Ok cs ->
    (length cs = length (el_trustees el) -> cs = map com_tx T /\ coms_done h)
    /\ (coms_done h -> cs = map com_tx T).
  Proof.
    intros Ho Hh L. apply (t_multiple_iff _ _ (stored_holds h) _ _ _ _ _ as_commitment_iff) in L.
    assert (Src : forall x a, In x h -> inside x -> s_tx x = XCommitment a -> exists p, In p T /\ a = com_tx p).
    { intros x a Ix Ins E. apply (inside_commitment h x a); assumption. }
    assert (Idf : forall p a, a = com_tx p -> tx_id (XCommitment a) = mk_id (id_election e) TKeyGenCommitment (first_byte (idx p))).
    { intros p a ->. reflexivity. }
    destruct (listing XCommitment TKeyGenCommitment (fun p a => a = com_tx p) h cs Hh L Src Idf) as [L1 L2].
    assert (Main : length cs = length T -> cs = map com_tx T /\ coms_done h).
    { intros Len. specialize (L2 Len). split.
      - clear -L2. induction L2 as [|p a ps l [-> _] _ IH]; [reflexivity|]. cbn [map]. rewrite <- IH. reflexivity.
      - intros p Ip. destruct (Forall2_in_l _ _ _ _ L2 Ip) as (a & _ & -> & At). exact At. }
    split; [rewrite number; exact Main|]. intros D. apply Main.
    apply (listing_full XCommitment TKeyGenCommitment (fun p a => a = com_tx p) h cs Hh L Src Idf).
    intros p Ip. destruct (D p Ip) as (x & Ix & Ex & _). exists x. auto.
  Qed.

  Lemma cs_keys : x_keys_of (map com_tx T) = all_keys T e /\ commitments_of (map com_tx T) = all_commitments T e.
  Proof. unfold x_keys_of, commitments_of, all_keys, all_commitments. rewrite !map_map. split; reflexivity. Qed.
  Lemma commitments_listed h : history dbg h ->
    exists cs, t_multiple as_commitment (ms_store (ms_from h)) e TKeyGenCommitment = Ok cs.
  Proof. intros Hh. destruct (commitments_total dbg h _ Hh (stored_holds h) e) as (cs & L & _). eauto. Qed.

  (** *** shares *)
  Definition share_tx (p : Trustee * ed_secret) (m : imap Byte.eqb bytes) : ShareTx :=
    mk_share (share_build_id e (idx p)) e (idx p) (tr_public_key (fst p)) m.
  Definition share_of (p : Trustee * ed_secret) (sh : ShareTx) : Prop :=
    exists nonces m, @generate_shares C TC TaskError (fst p) nonces (snd p) (all_keys T e) e (all_commitments T e) = Ok m
      /\ sh = share_tx p m.
  Lemma ans_share h1 y sh : honest h1 -> history dbg h1 -> ans h1 y -> s_tx y = XShare sh ->
    (exists p, In p T /\ share_of p sh) /\ coms_done h1.
  Proof.
    intros Ho1 Hh1 (sk & r & x & Nd & Ix & In1 & An) E. unfold answer in An. rewrite E in An.
    destruct An as (c & el' & t & cs & m & Tx & El & Tr & Cs & Len & G & ->).
    destruct (inside_commitment h1 x c Ho1 Hh1 Ix In1 Tx) as (p & Ip & ->). cbn [com_tx kc_election] in El.
    assert (el' = el) by (apply (find_election h1 e el' Ho1 Hh1 eq_refl El)). subst el'.
    destruct (list_commitments h1 cs Ho1 Hh1 Cs) as [L1 _]. destruct (L1 Len) as [-> D]. destruct cs_keys as [K1 K2].
    rewrite K1, K2 in G. split; [|exact D]. exists (t, sk). split; [apply (node_T sk t Nd Tr)|].
    exists (r_nonce r), m. split; [exact G|reflexivity].
  Qed.
  Lemma inside_share h y sh : honest h -> history dbg h -> In y h -> inside y -> s_tx y = XShare sh ->
    (exists p, In p T /\ share_of p sh) /\ coms_done h.
  Proof.
    intros Ho Hh I Ins E. pose proof (inside_answer h y Ho Hh I Ins) as X. rewrite E in X.
    destruct X as (h1 & h2 & -> & Ho1 & Hh1 & An & _). pose proof (ans_share h1 y sh Ho1 Hh1 An E) as X.
    destruct X as [X D]. split; [exact X|apply done_mono, D].
  Qed.
  Definition shs_done (h : list STx) (shs : list ShareTx) : Prop :=
    Forall2 (fun p sh => share_of p sh /\ at_id h (share_build_id e (idx p)) (XShare sh)) T shs.
  Lemma shs_mono h1 h2 shs : shs_done h1 shs -> shs_done (h1 ++ h2) shs.
  Proof. unfold shs_done. apply Forall2_impl. intros p sh [Q At]. split; [exact Q|apply at_id_mono, At]. Qed.
  Lemma shs_unique h shs shs' : history dbg h -> shs_done h shs -> shs_done h shs' -> shs = shs'.
  Proof.
    intros Hh. apply Forall2_fun. intros p a b [_ At] [_ At']. pose proof (at_fun _ _ _ _ Hh At At') as X. congruence.
  Qed.
  Lemma list_shares h shs : honest h -> history dbg h ->
    t_multiple as_share (ms_store (ms_from h)) e TKeyGenShare = Ok shs ->
    (length shs = length (el_trustees el) -> shs_done h shs)
    /\ (forall shs', shs_done h shs' -> shs = shs').
  Proof.
    intros Ho Hh L. apply (t_multiple_iff _ _ (stored_holds h) _ _ _ _ _ as_share_iff) in L.
    assert (Src : forall x a, In x h -> inside x -> s_tx x = XShare a -> exists p, In p T /\ share_of p a).
    { intros x a Ix Ins E. apply (inside_share h x a); assumption. }
    assert (Idf : forall p a, share_of p a -> tx_id (XShare a) = mk_id (id_election e) TKeyGenShare (first_byte (idx p))).
    { intros p a (nonces & m & _ & ->). reflexivity. }
    destruct (listing XShare TKeyGenShare share_of h shs Hh L Src Idf) as [L1 L2].
    assert (Main : length shs = length T -> shs_done h shs).
    { intros Len. specialize (L2 Len). unfold shs_done. revert L2. apply Forall2_impl. intros p a [Q At]. split; [exact Q|].
      rewrite (Idf p a Q) in At. exact At. }
    split; [rewrite number; exact Main|]. intros shs' D. apply (shs_unique h); [exact Hh| |exact D]. apply Main.
    apply (listing_full XShare TKeyGenShare share_of h shs Hh L Src Idf).
    intros p Ip. destruct (Forall2_in_l _ _ _ _ D Ip) as (a & _ & _ & x & Ix & Ex & _). exists x. auto.
  Qed.
  Lemma some_trustee : exists p, In p T.
  Proof.
    pose proof (ce_quorum _ _ (su_ceremony _ _ _ SU)) as Q. destruct T as [|p T']; [cbn in Q; lia|]. exists p. left. reflexivity.
  Qed.
  Lemma shs_coms h shs : honest h -> history dbg h -> shs_done h shs -> coms_done h.
  Proof.
    intros Ho Hh D. destruct some_trustee as (p & Ip). destruct (Forall2_in_l _ _ _ _ D Ip) as (sh & _ & _ & x & Ix & Ex & Tx).
    apply (inside_share h x sh Ho Hh Ix); [|exact Tx]. unfold SpecRun.inside. rewrite Ex. reflexivity.
  Qed.

  (** the shares published in a complete list *)
  Definition published (shs : list ShareTx) (p : Trustee * ed_secret) : list (byte * bytes) :=
    match find (fun sh => Byte.eqb (ks_trustee sh) (idx p)) shs with Some sh => sv (ks_shares sh) | None => [] end.
  Lemma gs_any E1 E2 t nonces sk keys i cs m : @generate_shares C TC E1 t nonces sk keys i cs = Ok m ->
    @generate_shares C TC E2 t nonces sk keys i cs = Ok m.
  Proof.
    unfold generate_shares. assert (R1 : forall cs g g', @receive_commitments C TC E1 g cs = Ok g' -> @receive_commitments C TC E2 g cs = Ok g').
    { clear. induction cs as [|[i c] cs IH]; intros g g'; cbn [receive_commitments]; [congruence|].
      destruct (tg_receive_commitment g (u8v i) c); cbn [or_panic bind]; [apply IH|discriminate]. }
    assert (R2 : forall keys n g m m', @shares_from C TC E1 n nonces g sk i keys m = Ok m' -> @shares_from C TC E2 n nonces g sk i keys m = Ok m').
    { clear. induction keys as [|[j k] keys IH]; intros n g m m'; cbn [shares_from]; [congruence|].
      destruct (tg_polynomial_share g (u8v j)); cbn [or_panic bind]; [apply IH|discriminate]. }
    intros H. apply bind_ok in H as (g & G1 & G2). rewrite (R1 _ _ _ G1). cbn [bind]. apply R2, G2.
  Qed.
  Lemma find_pos (Ps : people) shs : Forall2 (fun p sh => ks_trustee sh = idx p) Ps shs -> NoDup (map (fun p => idx p) Ps) ->
    Forall2 (fun p sh => published shs p = sv (ks_shares sh)) Ps shs.
  Proof.
    intros F. unfold published. induction F as [|p sh ps l Eq F IH]; intros N; constructor.
    - cbn [find]. rewrite Eq. rewrite (Byte.byte_dec_lb eq_refl). reflexivity.
    - cbn [map] in N. inversion N as [|? ? N1 N2]; subst. specialize (IH N2).
      apply Forall2_mem in IH. revert IH. apply Forall2_impl. intros p' sh' (I & _ & X). cbn [find]. destruct (Byte.eqb (ks_trustee sh) (idx p')) eqn:B; [|exact X].
      apply byte_eqb_eq in B. exfalso. apply N1. rewrite <- Eq, B. apply (in_map (fun p => idx p)), I.
  Qed.
  Lemma shs_published shs : Forall2 share_of T shs -> Forall2 (fun p sh => share_of p sh /\ published shs p = sv (ks_shares sh)) T shs.
  Proof.
    intros F. assert (G : Forall2 (fun p sh => ks_trustee sh = idx p) T shs).
    { revert F. apply Forall2_impl. intros p sh (nonces & m & _ & ->). reflexivity. }
    apply find_pos in G; [|apply (ce_distinct _ _ (su_ceremony _ _ _ SU))].
    apply (Forall2_both _ _ _ _ F G).
  Qed.
  Lemma published_honest shs : Forall2 share_of T shs -> honest_shares T e (published shs).
  Proof.
    intros F p Ip. apply shs_published in F. destruct (Forall2_in_l _ _ _ _ F Ip) as (sh & _ & (nonces & m & G & ->) & P).
    exists nonces, m. split; [apply (gs_any _ _ _ _ _ _ _ _ _ G)|exact P].
  Qed.
  Lemma assoc_in i (l : list (byte * bytes)) b : assoc Byte.eqb i l = Some b -> In (i, b) l.
  Proof.
    induction l as [|[j c] l IH]; cbn [assoc]; [discriminate|]. destruct (Byte.eqb i j) eqn:B.
    - intros X. injection X as ->. apply byte_eqb_eq in B. subst. left. reflexivity.
    - intros X. right. apply IH, X.
  Qed.
  Lemma in_assoc i (l : list (byte * bytes)) b : In (i, b) l -> exists c, assoc Byte.eqb i l = Some c.
  Proof.
    induction l as [|[j c] l IH]; [intros []|]. intros [X|X]; cbn [assoc].
    - injection X as -> ->. rewrite (Byte.byte_dec_lb eq_refl). eauto.
    - destruct (Byte.eqb i j); eauto.
  Qed.
  Lemma shares_sent {E} shs (p : Trustee * ed_secret) l : Forall2 share_of T shs -> @shares_to C E (fst p) shs = Ok l -> sent_to T (published shs) (idx p) l.
  Proof.
    intros F. apply shs_published in F. unfold sent_to. revert F. generalize (published shs) as f. intros f F. revert l.
    unfold shares_to. revert F. generalize T as Ps. intros Ps F. induction F as [|q sh ps shs' [Q P] F IH]; intros l G; cbn [map_res] in G; [injection G as <-; constructor|].
    apply bind_ok in G as (x & G1 & G2). apply bind_ok in G1 as (b & B & G1). apply or_panic_ok in B. injection G1 as <-.
    apply bind_ok in G2 as (l' & G2 & G3). injection G3 as <-. constructor; [|apply IH, G2]. cbn [fst snd].
    split; [destruct Q as (nonces & m & _ & ->); reflexivity|]. rewrite P. apply assoc_in, B.
  Qed.
  Lemma shares_found {E} shs (p : Trustee * ed_secret) : Forall2 share_of T shs -> In p T -> exists l, @shares_to C E (fst p) shs = Ok l.
  Proof.
    intros F Ip. unfold shares_to. assert (X : incl T T) by apply incl_refl. revert X F. generalize T at 1 3 as Ps. intros Ps Inc F.
    induction F as [|q sh ps shs' Q F IH]; [exists []; reflexivity|]. cbn [map_res].
    destruct Q as (nonces & m & G & ->). cbn [share_tx ks_shares ks_trustee].
    destruct (C51_shares_made S DH Op Sc T (el_threshold el) e (su_ceremony _ _ _ SU) TaskError q nonces) as (m' & G' & H').
    { apply Inc. left. reflexivity. }
    rewrite G in G'. injection G' as <-. destruct (H' p Ip) as (es & Ie). destruct (in_assoc _ _ _ Ie) as (b & B). rewrite B. cbn [or_panic bind].
    destruct IH as (l & L); [intros z Z; apply Inc; right; exact Z|]. rewrite L. cbn [bind]. eauto.
  Qed.
  Lemma done_of h shs : shs_done h shs -> Forall2 share_of T shs.
  Proof. unfold shs_done. apply Forall2_impl. intros p sh [Q _]. exact Q. Qed.
  Lemma key_made shs p l : Forall2 share_of T shs -> In p T -> sent_to T (published shs) (idx p) l ->
    exists pf, generate_public_key (fst p) (snd p) (all_keys T e) (all_commitments T e) l e = Ok (ts_key S A, pf).
  Proof.
    intros F Ip L. destruct (quorum_decrypts S DH Op Sc T (el_threshold el) e (published shs) (su_ceremony _ _ _ SU) (published_honest shs F)) as [Q _].
    apply (Q p l Ip L).
  Qed.

  (** *** public keys *)
  Definition pubkey_tx (p : Trustee * ed_secret) (pf : PubkeyProof) : PublicKeyTx :=
    mk_pubkey (pubkey_build_id e (idx p)) e (idx p) (tr_public_key (fst p)) (ts_key S A) pf.
  Definition pub_of (shs : list ShareTx) (p : Trustee * ed_secret) (q : PublicKeyTx) : Prop :=
    exists l pf, sent_to T (published shs) (idx p) l
      /\ generate_public_key (fst p) (snd p) (all_keys T e) (all_commitments T e) l e = Ok (ts_key S A, pf) /\ q = pubkey_tx p pf.
  Lemma ans_pubkey h1 y q : honest h1 -> history dbg h1 -> ans h1 y -> s_tx y = XPublicKey q ->
    exists p shs, In p T /\ shs_done h1 shs /\ pub_of shs p q.
  Proof.
    intros Ho1 Hh1 (sk & r & x & Nd & Ix & In1 & An) E. unfold answer in An. rewrite E in An.
    destruct An as (sh & el' & t & shs & cs & shares & kp & Tx & El & Tr & Sh & Len & Cs & To & G & ->).
    destruct (inside_share h1 x sh Ho1 Hh1 Ix In1 Tx) as ((p0 & Ip0 & (no & m0 & _ & ->)) & D0). cbn [share_tx ks_election] in El.
    assert (el' = el) by (apply (find_election h1 e el' Ho1 Hh1 eq_refl El)). subst el'.
    destruct (list_shares h1 shs Ho1 Hh1 Sh) as [L1 _]. specialize (L1 Len).
    destruct (list_commitments h1 cs Ho1 Hh1 Cs) as [_ L2]. rewrite (L2 D0) in G. destruct cs_keys as [K1 K2]. rewrite K1, K2 in G.
    pose proof (node_T sk t Nd Tr) as It. exists (t, sk), shs. split; [exact It|]. split; [exact L1|].
    pose proof (shares_sent shs (t, sk) shares (done_of _ _ L1) To) as Se.
    destruct (key_made shs (t, sk) shares (done_of _ _ L1) It Se) as (pf & G'). cbn [fst snd] in *. rewrite G in G'. injection G' as ->.
    exists shares, pf. split; [exact Se|]. split; [exact G|reflexivity].
  Qed.
  Lemma inside_pubkey h y q : honest h -> history dbg h -> In y h -> inside y -> s_tx y = XPublicKey q ->
    exists p shs, In p T /\ shs_done h shs /\ pub_of shs p q.
  Proof.
    intros Ho Hh I Ins E. pose proof (inside_answer h y Ho Hh I Ins) as X. rewrite E in X.
    destruct X as (h1 & h2 & -> & Ho1 & Hh1 & An & _). pose proof (ans_pubkey h1 y q Ho1 Hh1 An E) as X.
    destruct X as (p & shs & Ip & D & P). exists p, shs. split; [exact Ip|]. split; [apply shs_mono, D|exact P].
  Qed.
  Definition pks_done (h : list STx) (pks : list PublicKeyTx) : Prop :=
    exists shs, shs_done h shs /\ Forall2 (fun p q => pub_of shs p q /\ at_id h (pubkey_build_id e (idx p)) (XPublicKey q)) T pks.
  Lemma pks_mono h1 h2 pks : pks_done h1 pks -> pks_done (h1 ++ h2) pks.
  Proof.
    intros (shs & D & F). exists shs. split; [apply shs_mono, D|]. revert F. apply Forall2_impl. intros p q [Q At]. split; [exact Q|apply at_id_mono, At].
  Qed.
  Lemma pks_unique h pks pks' : history dbg h -> pks_done h pks -> pks_done h pks' -> pks = pks'.
  Proof.
    intros Hh (shs & D & F) (shs' & D' & G). pose proof (shs_unique h shs shs' Hh D D') as <-. revert F G.
    apply Forall2_fun. intros p a b [_ At] [_ At']. pose proof (at_fun _ _ _ _ Hh At At') as X. congruence.
  Qed.
  Lemma list_pubkeys h pks : honest h -> history dbg h ->
    t_multiple as_pubkey (ms_store (ms_from h)) e TKeyGenPublicKey = Ok pks ->
    (length pks = length (el_trustees el) -> pks_done h pks)
    /\ (forall pks', pks_done h pks' -> pks = pks').
  Proof.
    intros Ho Hh L. apply (t_multiple_iff _ _ (stored_holds h) _ _ _ _ _ as_pubkey_iff) in L.
    set (Q := fun (p : Trustee * ed_secret) q => exists shs, shs_done h shs /\ pub_of shs p q).
    assert (Src : forall x a, In x h -> inside x -> s_tx x = XPublicKey a -> exists p, In p T /\ Q p a).
    { intros x a Ix Ins E. destruct (inside_pubkey h x a Ho Hh Ix Ins E) as (p & shs & Ip & D). exists p. split; [exact Ip|]. exists shs. exact D. }
    assert (Idf : forall p a, Q p a -> tx_id (XPublicKey a) = mk_id (id_election e) TKeyGenPublicKey (first_byte (idx p))).
    { intros p a (shs & _ & l & pf & _ & _ & ->). reflexivity. }
    destruct (listing XPublicKey TKeyGenPublicKey Q h pks Hh L Src Idf) as [L1 L2].
    assert (Main : length pks = length T -> pks_done h pks).
    { intros Len. specialize (L2 Len). destruct some_trustee as (p0 & Ip0).
      destruct (Forall2_in_l _ _ _ _ L2 Ip0) as (q0 & _ & (shs & D & _) & _). exists shs. split; [exact D|].
      revert L2. apply Forall2_impl. intros p a [Qa At]. pose proof (Idf p a Qa) as Ea. destruct Qa as (shs' & D' & Pa).
      rewrite (shs_unique h shs shs' Hh D D'). split; [exact Pa|]. rewrite Ea in At. exact At. }
    split; [rewrite number; exact Main|]. intros pks' D. apply (pks_unique h); [exact Hh| |exact D]. apply Main.
    apply (listing_full XPublicKey TKeyGenPublicKey Q h pks Hh L Src Idf). destruct D as (shs & _ & D).
    intros p Ip. destruct (Forall2_in_l _ _ _ _ D Ip) as (a & _ & _ & x & Ix & Ex & _). exists x. auto.
  Qed.
  Lemma pks_honest h pks : pks_done h pks -> exists shs, shs_done h shs /\ honest_keys T e (published shs) pks.
  Proof.
    intros (shs & D & F). exists shs. split; [exact D|]. split.
    - intros p Ip. destruct (Forall2_in_l _ _ _ _ F Ip) as (q & Iq & (l & pf & _ & _ & ->) & _). eexists. split; [exact Iq|reflexivity].
    - intros p q Ip Iq Ek. destruct (Forall2_in_r _ _ _ _ F Iq) as (p' & Ip' & (l & pf & Se & G & ->) & _). cbn [pubkey_tx kp_trustee] in Ek.
      pose proof (T_idx p' p Ip' Ip Ek) as ->. exists l. split; [exact Se|exact G].
  Qed.

  (** *** the encryption key *)
  Definition enckey_tx : EncryptionKeyTx := mk_enckey (enckey_build_id e) e (el_authority el) (ts_key S A).
  Lemma ans_enckey h1 y k : honest h1 -> history dbg h1 -> ans h1 y -> s_tx y = XEncryptionKey k ->
    k = enckey_tx /\ exists pks, pks_done h1 pks.
  Proof.
    intros Ho1 Hh1 (sk & r & x & Nd & Ix & In1 & An) E. unfold answer in An. rewrite E in An.
    destruct An as (q & el' & pks & Tx & El & Au & Pk & Len & ->).
    destruct (inside_pubkey h1 x q Ho1 Hh1 Ix In1 Tx) as (p0 & shs0 & Ip0 & D0 & (l & pf & _ & _ & ->)). cbn [pubkey_tx kp_election] in El.
    assert (el' = el) by (apply (find_election h1 e el' Ho1 Hh1 eq_refl El)). subst el'.
    destruct (list_pubkeys h1 pks Ho1 Hh1 Pk) as [L1 _]. split; [reflexivity|]. exists pks. apply L1, Len.
  Qed.
  Lemma inside_enckey h y k : honest h -> history dbg h -> In y h -> inside y -> s_tx y = XEncryptionKey k ->
    k = enckey_tx /\ exists pks, pks_done h pks.
  Proof.
    intros Ho Hh I Ins E. pose proof (inside_answer h y Ho Hh I Ins) as X. rewrite E in X.
    destruct X as (h1 & h2 & -> & Ho1 & Hh1 & An & _). pose proof (ans_enckey h1 y k Ho1 Hh1 An E) as X.
    destruct X as (-> & pks & D). split; [reflexivity|]. exists pks. apply pks_mono, D.
  Qed.
  Lemma at_enckey h k : honest h -> history dbg h -> at_id h (slot0 e TEncryptionKey) (XEncryptionKey k) ->
    k = enckey_tx /\ exists pks, pks_done h pks.
  Proof. intros Ho Hh (x & I & Ex & Tx). apply (inside_enckey h x k Ho Hh I); [|exact Tx]. unfold SpecRun.inside. rewrite Ex. reflexivity. Qed.

  (** *** votes and the end of voting *)
  Definition shows (sels : list Selection) (row : list Ciphertext) : Prop :=
    Forall writable sels /\ Forall2 (fun s ct => encrypts S A (sel_encode s) ct) sels row.
  Lemma encrypted_shows ev sels : encrypted eg (ts_key S A) ev sels -> shows sels (ev_selections ev).
  Proof. intros (W & rng & E). split; [exact W|]. rewrite E. apply (encrypt_row S eg A En). Qed.
  Lemma key_before a b k : honest (a ++ b) -> history dbg (a ++ b) -> at_id a (slot0 e TEncryptionKey) (XEncryptionKey k) ->
    k = enckey_tx /\ exists pks, pks_done a pks.
  Proof.
    intros Ho Hh Ke. assert (Ha : honest a).
    { destruct Ke as (x & I & Ex & _). apply (honest_prefix b a x Ho I). unfold SpecRun.inside. rewrite Ex. reflexivity. }
    apply (at_enckey a k Ha (hist_prefix dbg _ _ Hh) Ke).
  Qed.
  Lemma not_answered a y : honest a -> history dbg a -> from_node a y ->
    match s_tx y with XElection _ | XVote _ | XVotingEnd _ => False | _ => True end.
  Proof.
    intros Ho Hh (h1 & h2 & sk & r & x & l & -> & Nd & Ix & In1 & G & Iy).
    pose proof (gen_inv dbg sk r _ x l y _ (stored_holds h1) G Iy) as An. unfold answer in An. destruct (s_tx y); auto.
  Qed.
  Lemma from_prefix a b y : honest (a ++ b) -> from_node a y -> honest a.
  Proof.
    intros Ho (h1 & h2 & sk & r & x & l & -> & Nd & Ix & In1 & G & Iy). apply (honest_prefix b _ x Ho); [apply grow, Ix|exact In1].
  Qed.
  Lemma inside_vote h y v : honest h -> history dbg h -> In y h -> inside y -> s_tx y = XVote v ->
    exists a b, h = a ++ y :: b /\ voter eg el contests a v
      /\ (forall ev, In ev (vt_votes v) -> exists sels, encrypted eg (ts_key S A) ev sels) /\ exists pks, pks_done h pks.
  Proof.
    intros Ho Hh I Ins E. destruct (provenance h y Ho I Ins) as [X|[(a & b & v' & -> & Tx & V)|[(a & b & ve & _ & X & _)|(a & b & -> & F)]]]; [congruence| |congruence|].
    - rewrite E in Tx. injection Tx as <-. exists a, b. split; [reflexivity|]. split; [exact V|].
      destruct (vo_key _ _ _ _ _ V) as (k & Ke & Enc). destruct (key_before a (y :: b) k Ho Hh Ke) as [-> (pks & D)].
      split; [exact Enc|]. exists pks. apply pks_mono, D.
    - pose proof (not_answered a y (from_prefix _ _ _ Ho F) (hist_prefix dbg _ _ Hh) F) as X. rewrite E in X. contradiction.
  Qed.
  Lemma inside_end h y ve : honest h -> history dbg h -> In y h -> inside y -> s_tx y = XVotingEnd ve ->
    ve_election ve = e /\ ended el h /\ at_id h (slot0 e TEncryptionKey) (XEncryptionKey enckey_tx) /\ exists pks, pks_done h pks.
  Proof.
    intros Ho Hh I Ins E. destruct (provenance h y Ho I Ins) as [X|[(a & b & v' & -> & Tx & V)|[(a & b & ve' & -> & Tx & V1 & V2 & k & Ke)|(a & b & -> & F)]]]; [congruence|congruence| |].
    - rewrite E in Tx. injection Tx as <-. split; [exact V1|]. split; [exists y; split; [exact I|]; unfold s_id; rewrite E; exact V2|].
      destruct (key_before a (y :: b) k Ho Hh Ke) as [-> (pks & D)]. split; [apply at_id_mono, Ke|]. exists pks. apply pks_mono, D.
    - pose proof (not_answered a y (from_prefix _ _ _ Ho F) (hist_prefix dbg _ _ Hh) F) as X. rewrite E in X. contradiction.
  Qed.
  Lemma range_inside h {X} (mk : X -> Tx) ty l a : history dbg h -> range_is (stored h) e ty mk l -> In a l ->
    exists x, In x h /\ inside x /\ s_tx x = mk a /\ id_type (s_id x) = ty.
  Proof.
    intros Hh Rg I. assert (Q : In (mk a) (map s_tx (listed (stored h) e ty))) by (rewrite Rg; apply in_map, I).
    apply in_map_iff in Q as (x & Ex & Ix). apply listed_in in Ix as (Ix & E1 & E2). exists x.
    split; [apply (hist_stored dbg h x Hh), Ix|auto].
  Qed.
  Lemma inside_range h {X} (mk : X -> Tx) ty l x : history dbg h -> range_is (stored h) e ty mk l -> In x h -> inside x ->
    id_type (s_id x) = ty -> exists a, In a l /\ s_tx x = mk a.
  Proof.
    intros Hh Rg Ix Ins Ty. assert (Q : In (s_tx x) (map mk l)).
    { rewrite <- Rg. apply in_map, listed_in. split; [apply (hist_stored dbg h x Hh), Ix|auto]. }
    apply in_map_iff in Q as (a & <- & Ia). eauto.
  Qed.
  Lemma votes_frozen h1 h2 vs : history dbg (h1 ++ h2) -> ended el h1 ->
    (range_is (stored h1) e TVote XVote vs <-> range_is (stored (h1 ++ h2)) e TVote XVote vs).
  Proof.
    intros Hh O. assert (E : listed (stored (h1 ++ h2)) e TVote = listed (stored h1) e TVote); [|unfold range_is; rewrite E; reflexivity].
    apply asc_ext; [apply listed_asc, stored_asc|apply listed_asc, stored_asc|]. intros x. rewrite !listed_in.
    rewrite (hist_stored dbg _ x Hh), (hist_stored dbg _ x (hist_prefix dbg _ _ Hh)). split.
    - intros (X & Y & Z). split; [|auto]. apply in_app_or in X as [X|X]; [exact X|exfalso].
      exact (no_vote_after_end dbg h1 h2 e Hh O x X (conj Y Z)).
    - intros (X & Y & Z). split; [|auto]. apply grow, X.
  Qed.
  Lemma count_votes h : honest h -> history dbg h -> el_mix_config el <> None ->
    (N.of_nat (length (listed (stored h) e TVote)) <= 65535)%N.
  Proof.
    intros Ho Hh Mx. set (f := fun x : STx => (arr_eqb (id_election (s_id x)) (id_election e) && tt_eqb (id_type (s_id x)) TVote)%bool).
    assert (Fs : forall x, f x = true <-> in_range e TVote x).
    { intros x. unfold f, in_range. rewrite andb_true_iff, arr_eqb_eq, tt_eqb_eq. reflexivity. }
    assert (Nd : forall l, history dbg l -> NoDup (filter f l)).
    { intros l Hl. apply NoDup_filter. apply (NoDup_map_inv s_id). apply (hist_nodup dbg l Hl). }
    assert (Main : (N.of_nat (length (filter f h)) <= 65535)%N).
    { assert (Skip : forall h x, ~ in_range e TVote x -> filter f (h ++ [x]) = filter f h).
      { intros h0 x Nr. rewrite filter_app. cbn [filter]. destruct (f x) eqn:Fx; [apply Fs in Fx; contradiction|apply app_nil_r]. }
      assert (Ty : forall h x t, history dbg h -> In x h -> s_tx x = t -> (match t with XVote _ => False | _ => True end) -> ~ in_range e TVote x).
      { intros h0 x t H0 I0 E0 Nv [_ Rg]. rewrite (hist_typed dbg h0 x H0 I0) in Rg. unfold s_type in Rg. rewrite E0 in Rg. destruct t; try discriminate Rg. exact Nv. }
      assert (Last : forall (h : list STx) x, In x (h ++ [x])) by (intros; apply in_or_app; right; left; reflexivity).
      induction Ho as [h x H0 Out Tx _ _|h x Ho IH [Out _] _ _|h x v Ho IH Tx V _ _|h x ve Ho IH Tx V1 V2 Kx _ _
                    |h1 h2 sk r x l z Ho IH Nod Ix In1 G Iz _]; pose proof (hist_prefix dbg _ _ Hh) as Hp.
      - rewrite (Skip h x) by (apply (Ty _ _ _ Hh (Last h x) Tx); exact Logic.I). destruct (filter f h) as [|y l] eqn:Q; [cbn; lia|exfalso].
        assert (Iy : In y (filter f h)) by (rewrite Q; left; reflexivity). apply filter_In in Iy as [Iy Fy].
        destruct (Out y Iy) as [O _]. apply O, (proj1 (Fs y) Fy).
      - rewrite (Skip h x); [apply IH, Hp|]. intros [Rg _]. apply Out, Rg.
      - rewrite filter_app. cbn [filter]. assert (L : (N.of_nat (length (filter f h)) < 65535)%N).
        { apply (proj2 (vo_mix _ _ _ _ _ V Mx)); [apply Nd, Hp|]. intros y Iy. apply filter_In in Iy as [Iy Fy].
          split; [exact Iy|apply Fs, Fy]. }
        rewrite app_length. destruct (f x); cbn [length]; lia.
      - rewrite (Skip h x) by (apply (Ty _ _ _ Hh (Last h x) Tx); exact Logic.I). apply IH, Hp.
      - rewrite (Skip _ z); [apply IH, Hp|]. apply (Ty _ _ (s_tx z) Hh (Last _ z) eq_refl).
        pose proof (gen_inv dbg sk r _ x l z _ (stored_holds h1) G Iz) as An. unfold answer in An. destruct (s_tx z); auto. }
    assert (Le : length (listed (stored h) e TVote) <= length (filter f h)); [|lia].
    apply NoDup_incl_length.
    - apply NoDup_filter, (NoDup_map_inv s_id), asc_nodup, stored_asc.
    - intros x Ix. apply listed_in in Ix as (Ix & Rg). apply filter_In. split; [apply (hist_stored dbg h x Hh), Ix|apply Fs, Rg].
  Qed.

  (** *** mixes *)
  Hypothesis shv : el_mix_config el <> None -> shuffle_verifies.
  Definition mix_tx (p : Trustee * ed_secret) (c : u32) (vs : list VoteTx) (mp : list (list Ciphertext) * ShuffleProof) : MixTx :=
    mk_mix (mix_build_id e c (u_of 4 0) x00 (idx p)) e None (idx p) (tr_public_key (fst p)) x00 c (u_of 4 0)
      (map fst (flat_map (in_contest c) vs)) (fst mp) (snd mp).
  Definition mix_of (h : list STx) (m : MixTx) : Prop :=
    el_mix_config el <> None /\ ended el h /\ at_id h (slot0 e TEncryptionKey) (XEncryptionKey enckey_tx)
    /\ exists p vs rn mp, In p T /\ idx p = x01
      /\ range_is (stored h) e TVote XVote vs /\ In (mx_contest m) (map fst (contest_votes vs))
      /\ mix rn (rows_of (mx_contest m) vs) (ts_key S A) (idx p) x00 (mx_contest m) (u_of 4 0) = Some mp /\ m = mix_tx p (mx_contest m) vs mp.
  Lemma ended_mono h1 h2 : ended el h1 -> ended el (h1 ++ h2).
  Proof. intros (x & I & Ex). exists x. split; [apply grow, I|exact Ex]. Qed.
  Lemma mix_mono h1 h2 m : history dbg (h1 ++ h2) -> mix_of h1 m -> mix_of (h1 ++ h2) m.
  Proof.
    intros Hh (M1 & M2 & M3 & p & vs & rn & mp & Ip & X1 & Rv & X2). split; [exact M1|]. split; [apply ended_mono, M2|].
    split; [apply at_id_mono, M3|]. exists p, vs, rn, mp. split; [exact Ip|]. split; [exact X1|]. split; [|exact X2].
    apply (votes_frozen h1 h2 vs Hh M2), Rv.
  Qed.
  Lemma ans_mix_step h y m : honest h -> history dbg h -> ans h y -> s_tx y = XMix m ->
    (forall x m0, In x h -> inside x -> s_tx x = XMix m0 -> mix_of h m0) -> mix_of h m.
  Proof.
    intros Ho Hh (sk & r & x & Nd & Ix & In1 & An) E Prev. unfold answer in An. rewrite E in An.
    destruct An as [(ve & el' & t & k & vs & n & c & votes & mp & Tx & El & Tr & Mc & Ti & Ke & Vs & Iv & Mx & ->)
                   |(m0 & el' & next & Tx & El & Nx & Th)].
    - destruct (inside_end h x ve Ho Hh Ix In1 Tx) as (V1 & V2 & V3 & _). rewrite V1 in El.
      assert (el' = el) by (apply (find_election h e el' Ho Hh eq_refl El)). subst el'.
      apply (t_enckey_iff _ _ (stored_holds h)), (hist_at_id dbg _ _ _ Hh) in Ke. destruct (at_enckey h k Ho Hh Ke) as [-> _]. cbn [ek_key enckey_tx] in Mx.
      apply (t_multiple_iff _ _ (stored_holds h) _ _ _ _ _ as_vote_iff) in Vs.
      split; [exact Mc|]. split; [exact V2|]. split; [exact V3|].
      exists (t, sk), vs, (r_mix r n), mp. cbn [mx_contest fst snd]. split; [apply (node_T sk t Nd Tr)|]. split; [exact Ti|]. split; [exact Vs|].
      split; [apply in_map_iff; exists (c, votes); auto|]. apply contest_votes_spec in Iv. subst votes. rewrite flat_rows' in Mx. split; [exact Mx|reflexivity].
    - exfalso. destruct (Prev x m0 Ix In1 Tx) as (Mc & _ & _ & p & vs & rn & mp & _ & _ & _ & _ & _ & Em). rewrite Em in El, Nx. cbn [mix_tx mx_election mx_index] in El, Nx.
      assert (el' = el) by (apply (find_election h e el' Ho Hh eq_refl El)). subst el'.
      destruct (su_mix _ _ _ SU) as [X|X]; [contradiction|]. rewrite X in Th. apply Th. destruct dbg; vm_compute in Nx; congruence.
  Qed.
  Lemma inside_mix h y m : honest h -> history dbg h -> In y h -> inside y -> s_tx y = XMix m -> mix_of h m.
  Proof.
    assert (G : forall n h y m, length h <= n -> honest h -> history dbg h -> In y h -> inside y -> s_tx y = XMix m -> mix_of h m).
    { induction n as [|n IH]; intros h0 y0 m0 Le Ho Hh I Ins E; [destruct h0; [destruct I|cbn in Le; lia]|].
      pose proof (inside_answer h0 y0 Ho Hh I Ins) as X. rewrite E in X. destruct X as (h1 & h2 & -> & Ho1 & Hh1 & An & Lt).
      apply mix_mono; [exact Hh|]. apply (ans_mix_step h1 y0 m0 Ho1 Hh1 An E). intros x m1 Ix Ix2 Ex. apply (IH h1 x m1); auto. lia. }
    intros Ho Hh. apply (G (length h)); auto.
  Qed.
  Lemma ans_mix h y m : honest h -> history dbg h -> ans h y -> s_tx y = XMix m -> mix_of h m.
  Proof.
    intros Ho Hh An E. apply (ans_mix_step h y m Ho Hh An E). intros x m0 Ix Ins Ex. apply (inside_mix h x m0 Ho Hh Ix Ins Ex).
  Qed.
  Lemma cast_once c v : votes_once c v -> exists ev, In ev (vt_votes v) /\ ev_contest ev = c /\ cast_rows c (vt_votes v) = [ev_selections ev].
  Proof.
    intros (pre & ev & post & -> & Ec & Un). exists ev. split; [apply in_or_app; right; left; reflexivity|]. split; [exact Ec|].
    assert (Z : forall l, (forall e, In e l -> ev_contest e <> c) -> cast_rows c l = []).
    { induction l as [|a l IH]; intros H; [reflexivity|]. cbn [cast_rows]. destruct (N.eqb _ _) eqn:B.
      - exfalso. apply (H a (or_introl eq_refl)). apply u_eqb_eq. exact B.
      - apply IH. intros z Iz. apply H. right. exact Iz. }
    assert (App : forall l l', cast_rows c (l ++ l') = cast_rows c l ++ cast_rows c l').
    { induction l as [|a l IH]; intros l'; [reflexivity|]. cbn [app cast_rows]. destruct (N.eqb _ _); cbn [app]; rewrite IH; reflexivity. }
    rewrite App, (Z pre) by (intros z Iz; apply Un, in_or_app; left; exact Iz). cbn [app cast_rows]. rewrite Ec, N.eqb_refl.
    rewrite (Z post) by (intros z Iz; apply Un, in_or_app; right; exact Iz). reflexivity.
  Qed.
  Lemma once_perm v c : Permutation (map ev_contest (vt_votes v)) contests -> In c contests -> votes_once c v.
  Proof.
    intros P I. apply (Permutation_in _ (Permutation_sym P)) in I. apply in_map_iff in I as (ev & Ec & I).
    assert (Nd : NoDup (map ev_contest (vt_votes v))) by (apply (Permutation_NoDup (Permutation_sym P)), (su_votes _ _ _ SU)).
    apply in_split in I as (pre & post & E). rewrite E, map_app in Nd. cbn [map] in Nd. exists pre, ev, post. split; [exact E|]. split; [exact Ec|].
    intros z Iz Ez. apply NoDup_remove_2 in Nd. apply Nd. rewrite <- map_app. rewrite Ec, <- Ez. apply in_map, Iz.
  Qed.
  Lemma listed_vote h vs v : honest h -> history dbg h -> range_is (stored h) e TVote XVote vs -> In v vs ->
    exists x a b, h = a ++ x :: b /\ s_tx x = XVote v /\ inside x /\ voter eg el contests a v
      /\ (forall ev, In ev (vt_votes v) -> exists sels, encrypted eg (ts_key S A) ev sels) /\ id_type (vt_id v) = TVote.
  Proof.
    intros Ho Hh Rv Iv. destruct (range_inside h XVote TVote vs v Hh Rv Iv) as (x & Ix & Ins & Tx & Ty).
    destruct (inside_vote h x v Ho Hh Ix Ins Tx) as (a & b & Ea & V & Enc & _). exists x, a, b. repeat (split; [assumption|]).
    unfold s_id in Ty. rewrite Tx in Ty. exact Ty.
  Qed.
  Record mix_facts (h : list STx) (m : MixTx) (vs : list VoteTx) : Prop := {
    mf_range : range_is (stored h) e TVote XVote vs;
    mf_contest : In (mx_contest m) contests;
    mf_once : forall v, In v vs -> votes_once (mx_contest m) v;
    mf_votes : mx_votes m = map vt_id vs;
    mf_length : length (mx_out m) = length vs;
    mf_bound : (N.of_nat (length (mx_out m)) <= 65535)%N;
    mf_verify : shuffle_verify (mix_seed (mx_contest m) (mx_batch m) (mx_index m) (mx_trustee m)) (N.of_nat (length (rows_of (mx_contest m) vs)))
                  (rows_of (mx_contest m) vs) (mx_out m) (ts_key S A) (mx_proof m) = true
  }.
  Lemma mix_made h m : honest h -> history dbg h -> mix_of h m -> exists vs, mix_facts h m vs.
  Proof.
    intros Ho Hh (Mc & Ed & _ & p & vs & rn & mp & Ip & Ei & Rv & Ic & Mx & Em). exists vs.
    apply contest_votes_keys in Ic as (v0 & ev0 & Iv0 & Ie0 & Ec0). set (c := mx_contest m) in *.
    assert (Vo : forall v, In v vs -> Permutation (map ev_contest (vt_votes v)) contests).
    { intros v Iv. destruct (listed_vote h vs v Ho Hh Rv Iv) as (x & a & b & _ & _ & _ & V & _). apply (vo_mix _ _ _ _ _ V Mc). }
    assert (Ic : In c contests) by (apply (Permutation_in _ (Vo v0 Iv0)); rewrite <- Ec0; apply in_map, Ie0).
    assert (On : forall v, In v vs -> votes_once c v) by (intros v Iv; apply (once_perm v c (Vo v Iv) Ic)).
    destruct mp as [outs pf]. destruct (shv Mc _ _ _ _ _ _ _ Mx) as [Sl Sv].
    assert (Lr : length (rows_of c vs) = length vs).
    { clear -On. induction vs as [|v vs IH]; [reflexivity|]. cbn [rows_of]. rewrite app_length, IH by (intros z Iz; apply On; right; exact Iz).
      destruct (cast_once c v (On v (or_introl eq_refl))) as (ev & _ & _ & ->). reflexivity. }
    assert (Lo : length (mx_out m) = length vs) by (rewrite Em; cbn [mix_tx mx_out fst]; congruence).
    constructor; [exact Rv|exact Ic|exact On| |exact Lo| |].
    - rewrite Em. cbn [mix_tx mx_votes]. rewrite flat_ids. apply repeats_once; [apply (range_votes_ids _ _ (stored_holds h) e vs Rv)|].
      intros v Iv. apply entries_once, On, Iv.
    - rewrite Lo. pose proof (count_votes h Ho Hh Mc) as Cn. apply (f_equal (@length _)) in Rv. rewrite !map_length in Rv. rewrite Rv in Cn. exact Cn.
    - rewrite Em. cbn [mix_tx mx_out mx_proof mx_contest mx_batch mx_index mx_trustee fst snd]. exact Sv.
  Qed.

  (** *** partial decryptions *)
  Definition part_of (h : list STx) (q : Trustee * ed_secret) (row : list Ciphertext) (p : PartialTx) : Prop :=
    exists shs l ds, shs_done h shs /\ sent_to T (published shs) (idx q) l
      /\ row_at (stored h) el (pd_upstream p) (pd_index p) (pd_contest p) row /\ id_election (pd_upstream p) = id_election e
      /\ Forall2 (fun d ct => exists rnd, partial_decrypt rnd (fst q) (snd q) (all_keys T e) (all_commitments T e) l ct e = Ok d) ds row
      /\ p = mk_partial (partial_build_id e (pd_upstream p) (pd_contest p) (pd_index p) (idx q)) e (pd_upstream p) (pd_index p) (pd_contest p)
               (idx q) (tr_public_key (fst q)) ds.
  Lemma part_mono h1 h2 q row p : history dbg (h1 ++ h2) -> part_of h1 q row p -> part_of (h1 ++ h2) q row p.
  Proof.
    intros Hh (shs & l & ds & D & Se & Ro & X). exists shs, l, ds. split; [apply shs_mono, D|]. split; [exact Se|].
    split; [apply (row_at_mono dbg); assumption|exact X].
  Qed.
  Lemma vote_row_at h vs v ev : honest h -> history dbg h -> el_mix_config el = None -> range_is (stored h) e TVote XVote vs -> In v vs ->
    In ev (vt_votes v) -> row_at (stored h) el (vt_id v) (u_of 2 0) (ev_contest ev) (ev_selections ev) /\ id_election (vt_id v) = id_election e.
  Proof.
    intros Ho Hh Mc Rv Iv Ie. destruct (listed_vote h vs v Ho Hh Rv Iv) as (x & a & b & Ea & Tx & Ins & V & _ & Ty).
    assert (Ei : s_id x = vt_id v) by (unfold s_id; rewrite Tx; reflexivity).
    split; [|rewrite <- Ei; exact Ins]. left. split; [exact Ty|]. split; [exact Mc|]. split; [reflexivity|]. exists v, ev.
    split; [apply (hist_at_id dbg _ _ _ Hh); exists x; split; [rewrite Ea; apply in_or_app; right; left; reflexivity|auto]|].
    split; [|reflexivity]. apply nodup_first; [apply (vo_once _ _ _ _ _ V)|exact Ie].
  Qed.
  Lemma uv16 j : (N.of_nat j < 65536)%N -> uv (u_of 2 (N.of_nat j)) = N.of_nat j.
  Proof. intros H. cbn [uv u_of]. apply N.mod_small. exact H. Qed.
  Lemma mix_row_at h m j row : honest h -> history dbg h -> mix_of h m -> at_id h (mx_id m) (XMix m) -> nth_error (mx_out m) j = Some row ->
    row_at (stored h) el (mx_id m) (u_of 2 (N.of_nat j)) (mx_contest m) row /\ id_election (mx_id m) = id_election e /\ (N.of_nat j < 65536)%N.
  Proof.
    intros Ho Hh Mo At J. destruct (mix_made h m Ho Hh Mo) as (vs & F). destruct Mo as (Mc & _ & _ & p & vs' & rn & mp & _ & _ & _ & _ & _ & Em).
    assert (Lj : j < length (mx_out m)) by (apply nth_error_Some; congruence). pose proof (mf_bound _ _ _ F) as Bo.
    split; [|split; [rewrite Em; reflexivity|lia]]. right. split; [rewrite Em; reflexivity|]. split; [exact Mc|]. exists m.
    split; [apply (hist_at_id dbg _ _ _ Hh), At|]. split; [reflexivity|]. rewrite uv16 by lia. rewrite Nat2N.id. split; [|exact J].
    rewrite N.mod_small by lia. lia.
  Qed.
  Lemma ans_partial h y p : honest h -> history dbg h -> ans h y -> s_tx y = XPartial p ->
    ended el h /\ (exists pks, pks_done h pks) /\ exists q row, In q T /\ part_of h q row p.
  Proof.
    intros Ho Hh (sk & r & x & Nd & Ix & In1 & An) E. unfold answer in An. rewrite E in An.
    destruct An as (el' & t & shs & cs & shares & i & ds & up & ix & c & row & El & Tr & Sh & Cs & To & Pa & Ep & Src).
    assert (Key : el_id el' = e /\ ended el h /\ exists pks, pks_done h pks).
    { destruct Src as [(ve & vs & v & ev & Tx & Ev & _)|(m & j & Tx & Em & _)].
      - destruct (inside_end h x ve Ho Hh Ix In1 Tx) as (V1 & V2 & _ & V3). split; [congruence|auto].
      - destruct (inside_mix h x m Ho Hh Ix In1 Tx) as (Mc & Ed & At & q & vs' & rn & mp & _ & _ & _ & _ & _ & Em').
        split; [rewrite <- Em, Em'; reflexivity|]. split; [exact Ed|]. apply (at_enckey h _ Ho Hh At). }
    destruct Key as (K1 & K2 & pks & K3). rewrite K1 in El.
    assert (el' = el) by (apply (find_election h e el' Ho Hh eq_refl El)). subst el'. clear El K1.
    split; [exact K2|]. split; [exists pks; exact K3|]. destruct K3 as (shs0 & D & _).
    destruct (list_shares h shs Ho Hh Sh) as [_ L1]. rewrite (L1 shs0 D) in *. clear L1 Sh.
    destruct (list_commitments h cs Ho Hh Cs) as [_ L2]. rewrite (L2 (shs_coms h shs0 Ho Hh D)) in *. clear L2 Cs. destruct cs_keys as [Ck1 Ck2].
    rewrite Ck1, Ck2 in Pa. pose proof (node_T sk t Nd Tr) as It. pose proof (shares_sent shs0 (t, sk) shares (done_of _ _ D) To) as Se.
    apply partial_shares_ok in Pa. exists (t, sk), row. split; [exact It|]. exists shs0, shares, ds. rewrite Ep.
    cbn [pd_upstream pd_index pd_contest fst snd].
    assert (Ro : row_at (stored h) el up ix c row /\ id_election up = id_election e).
    { destruct Src as [(ve & vs & v & ev & Tx & Ev & Mc & Vs & Iv & Ie & -> & -> & -> & ->)|(m & j & Tx & Em & Mc & -> & -> & J & ->)].
      - apply (t_multiple_iff _ _ (stored_holds h) _ _ _ _ _ as_vote_iff) in Vs. apply (vote_row_at h vs v ev Ho Hh Mc Vs Iv Ie).
      - assert (At : at_id h (mx_id m) (XMix m)) by (exists x; split; [exact Ix|]; unfold s_id; rewrite Tx; auto).
        destruct (mix_row_at h m j row Ho Hh (inside_mix h x m Ho Hh Ix In1 Tx) At J) as (X1 & X2 & _). auto. }
    destruct Ro as [R1 R2]. pose proof (proj1 (proj2 (full_acts el _ t Tr))) as Pk. rewrite <- Pk. split; [exact D|]. split; [exact Se|]. split; [exact R1|].
    split; [exact R2|]. split; [exact Pa|reflexivity].
  Qed.
  Lemma inside_partial h y p : honest h -> history dbg h -> In y h -> inside y -> s_tx y = XPartial p ->
    ended el h /\ (exists pks, pks_done h pks) /\ exists q row, In q T /\ part_of h q row p.
  Proof.
    intros Ho Hh I Ins E. pose proof (inside_answer h y Ho Hh I Ins) as X. rewrite E in X.
    destruct X as (h1 & h2 & -> & Ho1 & Hh1 & An & _). destruct (ans_partial h1 y p Ho1 Hh1 An E) as (K1 & (pks & K2) & q & row & Iq & Pa).
    split; [apply ended_mono, K1|]. split; [exists pks; apply pks_mono, K2|]. exists q, row. split; [exact Iq|]. apply part_mono; assumption.
  Qed.

  (** rows named in the election are told apart by the identifiers of their decryptions *)
  Lemma vote_ids_apart h x y : honest h -> history dbg h -> In x h -> In y h -> in_range e TVote x -> in_range e TVote y ->
    firstn 10 (arr_l (id_unique (s_id x))) = firstn 10 (arr_l (id_unique (s_id y))) -> x = y.
  Proof.
    intros Ho Hh Ix Iy Rx Ry Eq.
    assert (G : forall x a b, history dbg h -> h = a ++ x :: b -> in_range e TVote x -> forall z, In z a -> in_range e TVote z ->
              firstn 10 (arr_l (id_unique (s_id z))) <> firstn 10 (arr_l (id_unique (s_id x)))).
    { intros x0 a b _ E0 R0 z Iz Rz Ez. assert (I0 : In x0 h) by (rewrite E0; apply in_or_app; right; left; reflexivity).
      pose proof (hist_typed dbg h x0 Hh I0) as Ty. rewrite (proj2 R0) in Ty. destruct (s_tx x0) as [t|t|t|t|t|v|t|t|t|t] eqn:Tx; unfold s_type in Ty; rewrite Tx in Ty; try discriminate Ty.
      destruct (inside_vote h x0 v Ho Hh I0 (proj1 R0) Tx) as (a' & b' & Ea & V & _).
      assert (a' = a).
      { assert (Nd : NoDup h) by (apply (NoDup_map_inv s_id), (hist_nodup dbg h Hh)). rewrite E0 in Ea, Nd. clear -Ea Nd.
        revert a' Ea Nd. induction a as [|w a IH]; intros [|w' a'] Ea Nd; [reflexivity| | |].
        - injection Ea as <- Ea. exfalso. cbn [app] in Nd. inversion Nd as [|? ? N1 _]; subst. apply N1. apply in_or_app. right. left. reflexivity.
        - injection Ea as -> Ea. exfalso. cbn [app] in Nd. inversion Nd as [|? ? N1 _]; subst. apply N1. apply in_or_app. right. left. reflexivity.
        - injection Ea as <- Ea. f_equal. apply IH; [exact Ea|]. cbn [app] in Nd. inversion Nd; assumption. }
      subst a'. apply (vo_apart _ _ _ _ _ V z (conj Iz Rz)). rewrite Ez.
      destruct (hist_accepted dbg h x0 Hh I0) as (pre & post & _ & _ & _ & Va). apply (validate_iff _ _ (stored_holds pre)) in Va as (_ & _ & Va).
      rewrite Tx in Va. destruct Va as (el0 & _ & (_ & _ & Un) & _). unfold s_id. rewrite Tx. cbn [tx_id]. rewrite Un.
      rewrite firstn_firstn. reflexivity. }
    destruct (in_split _ _ Ix) as (a & b & Ea). rewrite Ea in Iy. apply in_app_or in Iy as [Iy|[Iy|Iy]].
    - exfalso. apply (G x a b Hh Ea Rx y Iy Ry). auto.
    - auto.
    - apply in_split in Iy as (c & d & ->). exfalso. assert (E' : h = (a ++ x :: c) ++ y :: d) by (rewrite Ea, <- app_assoc; reflexivity).
      assert (I' : In x (a ++ x :: c)) by (apply in_or_app; right; left; reflexivity). apply (G y _ _ Hh E' Ry x I' Rx). exact Eq.
  Qed.

  (** *** decryptions *)
  Lemma t_row_at h p row : row_at (stored h) el (pd_upstream p) (pd_index p) (pd_contest p) row -> t_row (ms_store (ms_from h)) p = Ok row.
  Proof.
    pose proof (stored_holds h) as H. unfold t_row. intros [(Q1 & _ & _ & v & ev & Q2 & Q3 & ->)|(Q1 & _ & m & Q2 & _ & _ & Q3)]; rewrite Q1.
    - apply (typed_at _ _ H as_vote XVote TVote _ _ as_vote_iff) in Q2. destruct Q2 as (g & G).
      unfold get_vote. rewrite G. cbn [map_err bind fst].
      assert (P : forall e, u_eqb (ev_contest e) (pd_contest p) = true <-> ev_contest e = pd_contest p) by (intros; apply u_eqb_eq).
      apply (find_first _ _ _ _ P) in Q3. rewrite Q3. reflexivity.
    - apply (typed_at _ _ H as_mix XMix TMix _ _ as_mix_iff) in Q2. destruct Q2 as (g & G).
      unfold get_mix. rewrite G. cbn [map_err bind fst]. rewrite Q3. reflexivity.
  Qed.
  Definition named (h : list STx) (up : Identifier) (c : u32) (ix : u16) (row : list Ciphertext) : Prop :=
    row_at (stored h) el up ix c row /\ id_election up = id_election e.
  Lemma slot_same h up c ix row up' c' ix' row' : honest h -> history dbg h -> named h up c ix row -> named h up' c' ix' row' ->
    slot_unique up c ix x00 = slot_unique up' c' ix' x00 -> row = row' /\ up = up' /\ c = c' /\ ix = ix'.
  Proof.
    intros Ho Hh [Ro Iu] [Ro' Iu'] Sl.
    pose proof (row_at_type _ _ _ _ _ _ Ro) as Rt. pose proof (row_at_type _ _ _ _ _ _ Ro') as Rt'.
    destruct (slot_unique_inj _ _ _ _ _ _ _ _ Rt Rt' Sl) as (Ec & Et & _ & Um & Uv).
    assert (Main : up = up' /\ ix = ix').
    { destruct Ro as [(Q1 & _ & Q0 & v & ev & Q2 & _)|(Q1 & _ & m & Q2 & Q3 & _)], Ro' as [(Q1' & _ & Q0' & v' & ev' & Q2' & _)|(Q1' & _ & m' & Q2' & Q3' & _)]; try congruence.
      - split; [|apply u_eqb_eq; unfold u_eqb; rewrite Q0, Q0'; reflexivity].
        destruct Q2 as (x & Ix & Ex & Tx), Q2' as (x' & Ix' & Ex' & Tx').
        apply (hist_stored dbg h _ Hh) in Ix, Ix'. rewrite <- Ex, <- Ex'. f_equal. apply (vote_ids_apart h x x' Ho Hh Ix Ix').
        + split; rewrite Ex; [exact Iu|exact Q1].
        + split; rewrite Ex'; [exact Iu'|exact Q1'].
        + rewrite Ex, Ex'. apply Uv, Q1.
      - split; [|apply Um, Q1]. apply (hist_at_id dbg _ _ _ Hh) in Q2, Q2'.
        assert (Mx : forall up m, at_id h up (XMix m) -> id_election up = id_election e -> up = mix_build_id e (mx_contest m) (u_of 4 0) x00 x01).
        { intros up0 m0 (x & Ix & Ex & Tx) Iu0. assert (Ins : inside x) by (unfold SpecRun.inside; rewrite Ex; exact Iu0).
          destruct (inside_mix h x m0 Ho Hh Ix Ins Tx) as (_ & _ & _ & q0 & vs & rn & mp & _ & I1 & _ & _ & _ & Em).
          rewrite <- Ex. unfold s_id. rewrite Tx. cbn [tx_id]. rewrite Em at 1. cbn [mix_tx mx_id]. rewrite I1. reflexivity. }
        rewrite (Mx _ _ Q2 Iu), (Mx _ _ Q2' Iu'). rewrite Q3, Q3', Ec. reflexivity. }
    destruct Main as [Eu Ei]. split; [|auto]. rewrite Eu, Ec, Ei in Ro. apply (row_at_fun _ _ _ _ _ _ _ _ (stored_holds h) Ro Ro').
  Qed.
  Lemma part_named h q row p : part_of h q row p -> named h (pd_upstream p) (pd_contest p) (pd_index p) row.
  Proof. intros (shs & l & ds & _ & _ & Ro & Iu & _). split; assumption. Qed.
  Lemma same_row h p p' q q' row row' : honest h -> history dbg h -> part_of h q row p -> part_of h q' row' p' ->
    firstn 15 (arr_l (id_unique (pd_id p))) = firstn 15 (arr_l (id_unique (pd_id p'))) ->
    row = row' /\ pd_upstream p = pd_upstream p' /\ pd_contest p = pd_contest p' /\ pd_index p = pd_index p'.
  Proof.
    intros Ho Hh P P' Eq. apply (slot_same h _ _ _ _ _ _ _ _ Ho Hh (part_named _ _ _ _ P) (part_named _ _ _ _ P')).
    destruct P as (shs & l & ds & _ & _ & Ro & Iu & _ & Ep). destruct P' as (shs' & l' & ds' & _ & _ & Ro' & Iu' & _ & Ep').
    pose proof (row_at_type _ _ _ _ _ _ Ro) as Rt. pose proof (row_at_type _ _ _ _ _ _ Ro') as Rt'.
    rewrite <- (with_last_slot _ _ _ (idx q) x00 Rt), <- (with_last_slot _ _ _ (idx q') x00 Rt'). apply with_last_eq.
    rewrite Ep, Ep' in Eq. exact Eq.
  Qed.
  Definition slot_range (h : list STx) (p : PartialTx) : list STx :=
    between (stored h) (mk_id (id_election e) TPartialDecryption (with_last (id_unique (pd_id p)) x00))
      (mk_id (id_election e) TPartialDecryption (with_last (id_unique (pd_id p)) xff)).
  Lemma slot_parts h q row p : honest h -> history dbg h -> In q T -> part_of h q row p ->
    exists parts, map s_tx (slot_range h p) = map XPartial parts
      /\ (forall p', In p' parts -> exists q', In q' T /\ part_of h q' row p')
      /\ NoDup (map pd_trustee parts)
      /\ (forall x p' q', In x h -> s_tx x = XPartial p' -> In q' T -> part_of h q' row p' ->
            pd_upstream p' = pd_upstream p -> pd_contest p' = pd_contest p -> pd_index p' = pd_index p -> In p' parts).
  Proof.
    intros Ho Hh Iq Pp.
    assert (In1 : forall y, In y (slot_range h p) <-> In y h /\ id_election (s_id y) = id_election e /\ id_type (s_id y) = TPartialDecryption
                  /\ firstn 15 (arr_l (id_unique (s_id y))) = firstn 15 (arr_l (id_unique (pd_id p)))).
    { intros y. unfold slot_range, between. rewrite filter_In, (hist_stored dbg h y Hh), slot_filter, !andb_true_iff, arr_eqb_eq, tt_eqb_eq, bytes_eqb_eq. tauto. }
    assert (Each : forall y, In y (slot_range h p) -> exists p' q', s_tx y = XPartial p' /\ In q' T /\ part_of h q' row p').
    { intros y Iy. apply In1 in Iy as (Iy & E1 & E2 & E3). pose proof (hist_typed dbg h y Hh Iy) as Ty. rewrite E2 in Ty.
      destruct (s_tx y) as [t|t|t|t|t|t|t|t|t|t] eqn:Tx; unfold s_type in Ty; rewrite Tx in Ty; try discriminate Ty.
      destruct (inside_partial h y t Ho Hh Iy E1 Tx) as (_ & _ & q' & row' & Iq' & Pp').
      assert (Ey : s_id y = pd_id t) by (unfold s_id; rewrite Tx; reflexivity). rewrite Ey in E3.
      destruct (same_row h t p q' q row' row Ho Hh Pp' Pp E3) as (-> & _). exists t, q'. auto. }
    assert (Ex : exists parts, map s_tx (slot_range h p) = map XPartial parts).
    { clear In1. induction (slot_range h p) as [|y l IH]; [exists []; reflexivity|]. destruct IH as (ps & IH); [intros z Iz; apply Each; right; exact Iz|].
      destruct (Each y (or_introl eq_refl)) as (p' & _ & E & _). exists (p' :: ps). cbn [map]. congruence. }
    destruct Ex as (parts & Ep). exists parts. split; [exact Ep|].
    assert (Of : forall p', In p' parts -> exists q', In q' T /\ part_of h q' row p').
    { intros p' Ip. assert (J : In (XPartial p') (map s_tx (slot_range h p))) by (rewrite Ep; apply in_map, Ip).
      apply in_map_iff in J as (y & Ey & Iy). destruct (Each y Iy) as (p2 & q2 & E2 & X). rewrite Ey in E2. injection E2 as <-. eauto. }
    split; [exact Of|]. split.
    - assert (Nd : NoDup (map pd_id parts)).
      { replace (map pd_id parts) with (map s_id (slot_range h p)).
        - apply asc_nodup. unfold slot_range, between. apply asc_filter, stored_asc.
        - unfold s_id. rewrite <- (map_map s_tx tx_id), Ep, map_map. reflexivity. }
      assert (Em : map pd_id parts = map (fun i => partial_build_id e (pd_upstream p) (pd_contest p) (pd_index p) i) (map pd_trustee parts)).
      { rewrite map_map. apply map_ext_in. intros p' Ip. assert (J : In (XPartial p') (map s_tx (slot_range h p))) by (rewrite Ep; apply in_map, Ip).
        apply in_map_iff in J as (y & Ey & Iy). apply In1 in Iy as (_ & _ & _ & E3). unfold s_id in E3. rewrite Ey in E3. cbn [tx_id] in E3.
        destruct (Of p' Ip) as (q' & Iq' & Pp'). destruct (same_row h p' p q' q row row Ho Hh Pp' Pp E3) as (_ & <- & <- & <-).
        destruct Pp' as (shs' & l' & ds' & _ & _ & _ & _ & _ & Ep'). rewrite Ep' at 1 5. reflexivity. }
      rewrite Em in Nd. apply NoDup_map_inv in Nd. exact Nd.
    - intros x p' q' Ix Tx Iq' Pp' Eu Ec Ei. assert (Iy : In x (slot_range h p)).
      { apply In1. assert (Exi : s_id x = pd_id p') by (unfold s_id; rewrite Tx; reflexivity). rewrite Exi.
        destruct Pp as (shs & l & ds & _ & _ & Ro & _ & _ & Epp). pose proof (row_at_type _ _ _ _ _ _ Ro) as Rt.
        destruct Pp' as (shs' & l' & ds' & _ & _ & Ro' & _ & _ & Epp'). rewrite Epp'. rewrite Epp. cbn [pd_id]. rewrite Eu, Ec, Ei.
        split; [exact Ix|]. split; [reflexivity|]. split; [reflexivity|].
        assert (W : forall b, firstn 15 (arr_l (slot_unique (pd_upstream p) (pd_contest p) (pd_index p) b))
                  = firstn 15 (arr_l (slot_unique (pd_upstream p) (pd_contest p) (pd_index p) x00))).
        { intros b. rewrite <- (with_last_slot _ _ _ x00 b Rt), with_last_l, firstn_app, firstn_firstn, firstn_length, arr_len, Nat.min_id.
          change (15 - Nat.min 15 16) with 0. rewrite firstn_O, app_nil_r. reflexivity. }
        unfold partial_build_id. rewrite !id_new_some. cbn [id_unique]. rewrite (W (idx q)), (W (idx q')). reflexivity. }
      assert (J : In (XPartial p') (map XPartial parts)) by (rewrite <- Ep, <- Tx; apply in_map, Iy).
      apply in_map_iff in J as (p2 & E2 & I2). injection E2 as ->. exact I2.
  Qed.
  Lemma Forall2_flip {X Y} (P : X -> Y -> Prop) l m : Forall2 P l m -> Forall2 (fun b a => P a b) m l.
  Proof. intros F. induction F; constructor; auto. Qed.
  (** the partial decryptions of a slot decrypt its row *)
  Lemma parts_decrypt h row parts pks sels : honest h -> history dbg h -> pks_done h pks ->
    (forall p', In p' parts -> exists q', In q' T /\ part_of h q' row p') -> NoDup (map pd_trustee parts) ->
    (u8v (el_threshold el) <= N.of_nat (length parts))%N -> shows sels row ->
    decrypt_vote row (el_threshold el) (el_trustees el) pks parts = Ok sels.
  Proof.
    intros Ho Hh Pk Of Nd Th [Wr Sh]. destruct (pks_honest h pks Pk) as (shs & D & HK).
    destruct (quorum_decrypts S DH Op Sc T (el_threshold el) e (published shs) (su_ceremony _ _ _ SU) (published_honest shs (done_of _ _ D))) as [_ Q].
    apply (Q el row sels pks parts eq_refl indices HK); [|exact Wr|exact Sh]. split.
    - exists (map pd_trustee parts). split; [exact Nd|]. split; [apply incl_refl|]. rewrite map_length. exact Th.
    - intros p' Ip. destruct (Of p' Ip) as (q' & Iq' & shs' & l & ds & D' & Se & _ & _ & F & Ep). exists q', l. split; [exact Iq'|].
      split; [rewrite Ep; reflexivity|]. rewrite (shs_unique h shs' shs Hh D' D) in Se. split; [exact Se|].
      rewrite Ep. cbn [pd_shares]. apply (Forall2_flip _ _ _ F).
  Qed.
  Definition dec_of (h : list STx) (d : DecryptionTx) : Prop :=
    dc_election d = e /\ dc_id d = decryption_build_id e (dc_upstream d) (dc_contest d) (dc_index d)
    /\ exists row, row_at (stored h) el (dc_upstream d) (dc_index d) (dc_contest d) row /\ id_election (dc_upstream d) = id_election e
         /\ forall sels, shows sels row -> dc_vote d = sels.
  Lemma ans_decryption h y d : honest h -> history dbg h -> ans h y -> s_tx y = XDecryption d ->
    (exists pks, pks_done h pks) /\ dec_of h d.
  Proof.
    intros Ho Hh (sk & r & x & Nd & Ix & In1 & An) E. unfold answer in An. rewrite E in An.
    destruct An as (p & el' & t & parts & cts & pks & sels & Tx & El & Tr & (lr & Rg & Th & Pa) & Ct & Pk & Dv & Ed).
    destruct (inside_partial h x p Ho Hh Ix In1 Tx) as (Ev & (pks0 & Pd) & q & row & Iq & Pp).
    assert (Ee : pd_election p = e) by (destruct Pp as (shs & l & ds & _ & _ & _ & _ & _ & ->); reflexivity). rewrite Ee in El.
    assert (el' = el) by (apply (find_election h e el' Ho Hh eq_refl El)). subst el'.
    split; [eauto|]. rewrite (h_range _ _ (stored_holds h)) in Rg by apply slot_start_stop. injection Rg as <-. fold (slot_range h p) in Th, Pa.
    destruct (slot_parts h q row p Ho Hh Iq Pp) as (parts' & Ep & Of & Ndp & _).
    rewrite (map_into as_partial XPartial _ _ as_partial_iff Ep) in Pa. injection Pa as ->.
    destruct (list_pubkeys h pks Ho Hh Pk) as [_ L1]. rewrite (L1 pks0 Pd) in Dv.
    assert (Ro : row_at (stored h) el (pd_upstream p) (pd_index p) (pd_contest p) row /\ id_election (pd_upstream p) = id_election e)
      by (destruct Pp as (shs & l & ds & _ & _ & R1 & R2 & _); auto). destruct Ro as [R1 R2].
    rewrite (t_row_at h p row R1) in Ct. injection Ct as <-.
    rewrite Ed. split; [reflexivity|]. split; [reflexivity|]. cbn [dc_upstream dc_index dc_contest dc_vote]. exists row. split; [exact R1|]. split; [exact R2|].
    intros sels' Sh. apply (f_equal (@length _)) in Ep. rewrite !map_length in Ep.
    rewrite (parts_decrypt h row parts pks0 sels' Ho Hh Pd Of Ndp ltac:(lia) Sh) in Dv. congruence.
  Qed.
  Lemma inside_decryption h y d : honest h -> history dbg h -> In y h -> inside y -> s_tx y = XDecryption d -> dec_of h d.
  Proof.
    intros Ho Hh I Ins E. pose proof (inside_answer h y Ho Hh I Ins) as X. rewrite E in X.
    destruct X as (h1 & h2 & -> & Ho1 & Hh1 & An & _). destruct (ans_decryption h1 y d Ho1 Hh1 An E) as (_ & D1 & D2 & row & Ro & D3).
    split; [exact D1|]. split; [exact D2|]. exists row. split; [apply (row_at_mono dbg); assumption|exact D3].
  Qed.

  (** *** every answer is accepted, also later *)
  Lemma one_sign sk t l y : one sk t = Ok l -> In y l -> tsign sk (s_tx y) = Ok y.
  Proof.
    intros E I. unfold one in E. apply bind_ok in E as (x & X & E). injection E as <-. destruct I as [<-|[]].
    pose proof (tsign_tx sk t x X) as [-> _]. exact X.
  Qed.
  Lemma gen_tsign sk r s x l y : generate_transactions dbg sk r s x = Ok l -> In y l -> tsign sk (s_tx y) = Ok y.
  Proof.
    assert (Ps : forall t keys cm sh e l n xs, partials_from sk r n t keys cm sh e l = Ok xs -> In y xs -> tsign sk (s_tx y) = Ok y).
    { intros t keys cm sh e0 l0 n xs G I. apply partials_from_in in G. destruct (Forall2_in_l _ _ _ _ G I) as ([[[up ix] c] row] & _ & i & ds & _ & X).
      pose proof (tsign_tx sk _ _ X) as [-> _]. exact X. }
    assert (Pp : forall s el t c m xs, produce_partials sk r s el t c m = Ok xs -> In y xs -> tsign sk (s_tx y) = Ok y).
    { intros s0 el0 t c m xs G. unfold produce_partials in G. apply bind_ok in G as (shs & _ & G). apply bind_ok in G as (cs & _ & G).
      apply bind_ok in G as (shares & _ & G). destruct m; [eapply Ps, G|]. apply bind_ok in G as (vs & _ & G). eapply Ps, G. }
    intros G I. unfold generate_transactions in G. destruct (s_tx x) as [t|t|t|t|t|t|t|t|t|t]; try (injection G as <-; destruct I).
    - unfold process_election in G. destruct (trustee_from_election _ _); [|injection G as <-; destruct I]. apply (one_sign _ _ _ _ G I).
    - unfold process_keygen_commitment in G. apply bind_ok in G as (el0 & _ & G). destruct (trustee_from_election _ _); [|injection G as <-; destruct I].
      apply bind_ok in G as (cs & _ & G). destruct (Nat.eqb _ _); [|injection G as <-; destruct I]. apply bind_ok in G as (m & _ & G). apply (one_sign _ _ _ _ G I).
    - unfold process_keygen_share in G. apply bind_ok in G as (el0 & _ & G). destruct (trustee_from_election _ _); [|injection G as <-; destruct I].
      apply bind_ok in G as (shs & _ & G). destruct (negb _); [injection G as <-; destruct I|]. apply bind_ok in G as (cs & _ & G). apply bind_ok in G as (m & _ & G).
      apply bind_ok in G as (kp & _ & G). apply (one_sign _ _ _ _ G I).
    - unfold process_keygen_public_key in G. apply bind_ok in G as (el0 & _ & G). destruct (pk_eqb _ _); [|injection G as <-; destruct I].
      apply bind_ok in G as (pks & _ & G). destruct (Nat.eqb _ _); [|injection G as <-; destruct I]. apply (one_sign _ _ _ _ G I).
    - unfold process_voting_end in G. apply bind_ok in G as (el0 & _ & G). destruct (trustee_from_election _ _); [|injection G as <-; destruct I].
      destruct (el_mix_config el0).
      + destruct (Byte.eqb _ _); [|injection G as <-; destruct I]. apply bind_ok in G as (k & _ & G). apply bind_ok in G as (vs & _ & G).
        destruct (first_mixes_in _ _ _ _ _ _ _ _ _ G I) as (n & c & votes & mp & _ & _ & X). pose proof (tsign_tx sk _ _ X) as [-> _]. exact X.
      + destruct (el_contests el0); [injection G as <-; destruct I|]. apply (Pp _ _ _ _ _ _ G I).
    - unfold process_mix in G. apply bind_ok in G as (el0 & _ & G). destruct (trustee_from_election _ _); [|injection G as <-; destruct I].
      destruct (el_mix_config el0); [|injection G as <-; destruct I]. apply bind_ok in G as (nx & _ & G). destruct (Byte.eqb _ _); [apply (Pp _ _ _ _ _ _ G I)|].
      apply bind_ok in G as (turn & _ & G). destruct (Byte.eqb _ _); [|injection G as <-; destruct I]. apply bind_ok in G as (k & _ & G).
      apply bind_ok in G as (mp & _ & G). apply (one_sign _ _ _ _ G I).
    - unfold process_partial_decryption in G. apply bind_ok in G as (el0 & _ & G). destruct (trustee_from_election _ _); [|injection G as <-; destruct I].
      apply bind_ok in G as (lr & _ & G). destruct (Nat.leb _ _); [|injection G as <-; destruct I]. apply bind_ok in G as (parts & _ & G).
      apply bind_ok in G as (cts & _ & G). apply bind_ok in G as (pks & _ & G). apply bind_ok in G as (sels & _ & G). apply (one_sign _ _ _ _ G I).
  Qed.
  Lemma stored_election h : honest h -> history dbg h -> at_id (stored h) e (XElection el).
  Proof. intros Ho Hh. apply (hist_at_id dbg _ _ _ Hh), election_at, Ho. Qed.
  Lemma pks_range h pks : honest h -> history dbg h -> pks_done h pks -> range_is (stored h) e TKeyGenPublicKey XPublicKey pks.
  Proof.
    intros Ho Hh D. destruct (pubkeys_total dbg h _ Hh (stored_holds h) e) as (l & L & Rg). destruct (list_pubkeys h l Ho Hh L) as [_ U].
    rewrite <- (U pks D). exact Rg.
  Qed.
  Lemma ok_share_of h p sh : honest h -> history dbg h -> In p T -> share_of p sh -> ok_share (stored h) sh.
  Proof.
    intros Ho Hh Ip (nonces & m & G & ->). exists el. cbn [share_tx ks_election ks_trustee ks_public ks_shares].
    split; [apply stored_election; assumption|]. split; [apply listed_T, Ip|].
    assert (Ks : map fst (sv m) = map (fun p => idx p) T).
    { unfold generate_shares in G. apply bind_ok in G as (g & _ & G). assert (Mk : map fst (all_keys T e) = map (fun p => idx p) T) by (unfold all_keys; rewrite map_map; reflexivity).
      apply shares_from_keys in G; cbn [imap_empty sv map app] in *; rewrite Mk in *; [exact G|]. apply (ce_distinct _ _ (su_ceremony _ _ _ SU)). }
    split; [rewrite number, <- (map_length fst (sv m)), Ks, map_length; reflexivity|].
    intros tr It. assert (J : In (tr_index tr) (map fst (sv m))).
    { rewrite Ks. apply (Permutation_in _ indices), in_map, It. }
    apply in_map_iff in J as ([i b] & Ei & J). cbn [fst] in Ei. subst i. eauto.
  Qed.
  Lemma ok_enckey_of h pks : honest h -> history dbg h -> pks_done h pks -> ok_enckey (stored h) enckey_tx.
  Proof.
    intros Ho Hh D. exists el, pks. cbn [enckey_tx ek_election ek_authority ek_key]. split; [apply stored_election; assumption|]. split; [reflexivity|].
    split; [apply pks_range; assumption|]. destruct D as (shs & _ & F). pose proof (forall2_len _ _ _ F) as Ln.
    split; [rewrite number; auto|]. split.
    - intros tr It. destruct (T_listed (tr_index tr) (tr_public_key tr)) as (p & Ip & E1 & E2); [exists tr; auto|].
      destruct (Forall2_in_l _ _ _ _ F Ip) as (q & Iq & (l & pf & _ & _ & ->) & _). exists (pubkey_tx p pf). auto.
    - intros q Iq. destruct (Forall2_in_r _ _ _ _ F Iq) as (p & _ & (l & pf & _ & _ & ->) & _). reflexivity.
  Qed.
  Lemma ok_mix_of h m : honest h -> history dbg h -> mix_of h m -> ok_mix dbg (stored h) m.
  Proof.
    intros Ho Hh Mo. destruct (mix_made h m Ho Hh Mo) as (vs & F). destruct Mo as (Mc & _ & At & p & vs' & rn & mp & Ip & Ei & _ & _ & _ & Em).
    destruct (el_mix_config el) as [mc|] eqn:Ec; [|congruence].
    assert (Es : mx_id m = mix_build_id (mx_election m) (mx_contest m) (mx_batch m) (mx_index m) (mx_trustee m) /\ mx_election m = e /\ mx_trustee m = x01
      /\ mx_public m = tr_public_key (fst p) /\ mx_index m = x00 /\ mx_prev m = None).
    { rewrite Em. cbn [mix_tx mx_id mx_election mx_contest mx_batch mx_index mx_trustee mx_public mx_prev]. auto 10. }
    destruct Es as (E1 & E2 & E3 & E4 & E5 & E6). split; [exact E1|]. rewrite E2, E3, E4. split.
    { exists el, mc. split; [apply stored_election; assumption|]. split; [exact Ec|]. rewrite <- Ei. apply listed_T, Ip. }
    rewrite E5. split; [left; reflexivity|]. split; [rewrite (mf_length _ _ _ F), (mf_votes _ _ _ F), map_length; reflexivity|].
    exists (rows_of (mx_contest m) vs), enckey_tx. split; [|split; [apply (hist_at_id dbg _ _ _ Hh), At|]].
    - left. split; [exact E6|]. split; [exact E5|]. rewrite E2. exists vs. pose proof (mf_range _ _ _ F) as Rg. split; [exact Rg|]. split; [|reflexivity].
      rewrite (mf_votes _ _ _ F). symmetry. apply (range_votes_ids _ _ (stored_holds h) e vs Rg).
    - pose proof (mf_verify _ _ _ F) as V. rewrite E3, E5 in V. exact V.
  Qed.
  Lemma ok_partial_of h q row p pks : honest h -> history dbg h -> ended el h -> pks_done h pks -> In q T -> part_of h q row p -> ok_partial (stored h) p.
  Proof.
    intros Ho Hh (z & Iz & Ez) Pk Iq (shs & l & ds & D & Se & Ro & Iu & F & Ep). destruct Pk as (shs' & D' & Fp).
    pose proof (shs_unique h shs' shs Hh D' D) as ->. destruct (Forall2_in_l _ _ _ _ Fp Iq) as (pk & _ & (l' & pf & Se' & G & Epk) & At).
    pose proof (sent_unique T e (published shs) (idx q) l' l (published_honest shs (done_of _ _ D)) Se' Se) as ->.
    exists el, row, pk. rewrite Ep. cbn [pd_election pd_trustee pd_public pd_id pd_upstream pd_contest pd_index pd_shares].
    split; [apply stored_election; assumption|]. split; [apply listed_T, Iq|]. split; [reflexivity|].
    split; [exists z; split; [apply (hist_stored dbg h z Hh), Iz|exact Ez]|]. split; [exact Ro|].
    split; [apply (hist_at_id dbg _ _ _ Hh), At|]. rewrite Epk. cbn [pubkey_tx kp_trustee kp_public kp_proof]. split; [reflexivity|]. split; [reflexivity|].
    unfold generate_public_key in G. apply bind_ok in G as (pa & Pa & G). injection G as _ <-.
    revert F. apply Forall2_impl. intros d ct (rnd & Pd). unfold partial_decrypt in Pd. rewrite Pa in Pd. cbn [bind] in Pd. injection Pd as <-.
    apply (ts_share_verifies S).
  Qed.
  Lemma answer_ok h1 h2 sk r x l y : honest (h1 ++ h2) -> history dbg (h1 ++ h2) -> honest h1 -> node sk -> In x h1 -> inside x ->
    generate_transactions dbg sk r (ms_store (ms_from h1)) x = Ok l -> In y l -> validate dbg (ms_store (ms_from (h1 ++ h2))) y = Ok tt.
  Proof.
    intros Ho Hh Ho1 Nd Ix In1 G Iy. pose proof (hist_prefix dbg _ _ Hh) as Hh1. set (h := h1 ++ h2) in *.
    assert (An : ans h1 y) by (exists sk, r, x; repeat (split; [assumption|]); apply (gen_inv dbg sk r _ x l y _ (stored_holds h1) G Iy)).
    pose proof (gen_tsign sk r _ x l y G Iy) as Sg.
    assert (Ok2 : id_type (tx_id (s_tx y)) = tx_type (s_tx y) /\ ok_tx (stored h) dbg (s_tx y));
      [|destruct Ok2 as [O1 O2]; apply (tsign_valid dbg sk law _ _ (stored_holds h) _ _ Sg O1 O2)].
    destruct (s_tx y) as [t|t|t|t|t|t|t|t|t|t] eqn:Ty;
      try (exfalso; destruct An as (sk0 & r0 & x0 & _ & _ & _ & An); unfold answer in An; rewrite Ty in An; exact An).
    - destruct (ans_commitment h1 y t Ho1 Hh1 An Ty) as (p & Ip & ->). split; [reflexivity|]. exists el.
      split; [apply stored_election; assumption|]. apply (listed_T p Ip).
    - destruct (ans_share h1 y t Ho1 Hh1 An Ty) as ((p & Ip & Sh) & _). split; [destruct Sh as (nn & m & _ & ->); reflexivity|]. apply (ok_share_of h p t Ho Hh Ip Sh).
    - destruct (ans_pubkey h1 y t Ho1 Hh1 An Ty) as (p & shs & Ip & _ & (ls & pf & _ & _ & ->)). split; [reflexivity|]. exists el.
      split; [apply stored_election; assumption|]. apply (listed_T p Ip).
    - destruct (ans_enckey h1 y t Ho1 Hh1 An Ty) as (-> & pks & D). split; [reflexivity|]. apply (ok_enckey_of h pks Ho Hh), pks_mono, D.
    - pose proof (mix_mono h1 h2 t Hh (ans_mix h1 y t Ho1 Hh1 An Ty)) as Mo. split; [|apply (ok_mix_of h t Ho Hh Mo)].
      destruct Mo as (_ & _ & _ & p & vs & rn & mp & _ & _ & _ & _ & _ & Em). rewrite Em. reflexivity.
    - destruct (ans_partial h1 y t Ho1 Hh1 An Ty) as (Ed & (pks & D) & q & row & Iq & Pp). split; [destruct Pp as (a1 & a2 & a3 & _ & _ & _ & _ & _ & ->); reflexivity|].
      apply (ok_partial_of h q row t pks Ho Hh); [apply ended_mono, Ed|apply pks_mono, D|exact Iq|apply part_mono; assumption].
    - destruct (ans_decryption h1 y t Ho1 Hh1 An Ty) as ((pks & D) & De).
      split; [destruct De as (E1 & E2 & _); cbn [tx_id tx_type]; rewrite E2; reflexivity|].
      destruct (s_tx x) as [tx|tx|tx|tx|tx|tx|tx|tx|tx|tx] eqn:Tx;
        try (exfalso; pose proof (gen_inv dbg sk r _ x l y _ (stored_holds h1) G Iy) as B; unfold answer in B; rewrite Ty, Tx in B;
             destruct B as (p0 & el0 & t0 & pa & ct & pk & se & B & _); discriminate B).
      unfold generate_transactions in G. rewrite Tx in G.
      destruct (partial_task dbg sk law h1 x tx l y Hh1 Ix Tx G Iy) as (d & Ed & _ & _ & _ & _ & V). rewrite Ty in Ed. injection Ed as <-.
      apply (validate_iff _ _ (stored_holds h1)) in V as (_ & _ & V). rewrite Ty in V. cbn [ok_tx] in V |- *.
      destruct V as (el0 & row & pks0 & parts & V1 & V2 & V3 & V4 & V5 & V6). destruct De as (De & _). rewrite De in *.
      assert (El0 : el0 = el) by (apply (hist_at_id dbg _ _ _ Hh1) in V1; pose proof (at_fun _ _ _ _ Hh1 V1 (election_at _ Ho1)) as X; congruence). subst el0.
      assert (Ek : pks0 = pks).
      { pose proof (pks_range h1 pks Ho1 Hh1 D) as Rg. unfold range_is in Rg, V4. rewrite Rg in V4.
        clear -V4. revert pks V4. induction pks0 as [|a l IH]; intros [|b l'] E; try discriminate E; [reflexivity|]. cbn [map] in E. injection E as -> E. f_equal. apply IH, E. }
      subst pks0. exists el, row, pks, parts. rewrite De.
      split; [apply stored_election; assumption|]. split; [exact V2|]. split; [apply (row_at_mono dbg); assumption|].
      split; [apply (pks_range h pks Ho Hh), pks_mono, D|]. split; [|exact V6].
      revert V5. apply Forall2_impl. intros i p [A1 A2]. split; [exact A1|]. apply (hist_at_id dbg _ _ _ Hh), at_id_mono, (hist_at_id dbg _ _ _ Hh1), A2.
  Qed.
  Theorem honest_history h : honest h -> history dbg h.
  Proof.
    induction 1 as [h x Hh Out Tx F V|h x Ho IH Out F V|h x v Ho IH Tx Vo F V|h x ve Ho IH Tx V1 V2 Ke F V
                    |h1 h2 sk r x l y Ho IH Nd Ix In1 G Iy F]; try (apply hist_snoc; assumption).
    apply hist_snoc; [exact IH|exact F|]. apply (answer_ok h1 h2 sk r x l y Ho IH (honest_prefix h2 h1 x Ho Ix In1) Nd Ix In1 G Iy).
  Qed.

  (** *** what is recorded in the end *)
  Lemma prefix_in (h1 h2 a b : list STx) x : NoDup (h1 ++ h2) -> h1 ++ h2 = a ++ x :: b -> In x h1 -> exists c, h1 = (a ++ [x]) ++ c.
  Proof.
    revert h1. induction a as [|z a IH]; intros h1 Nd E I.
    - destruct h1 as [|w h1]; [destruct I|]. cbn [app] in E. injection E as -> _. exists h1. reflexivity.
    - destruct h1 as [|w h1]; [destruct I|]. cbn [app] in E. injection E as -> E. destruct I as [->|I].
      + exfalso. cbn [app] in Nd. inversion Nd as [|? ? N1 _]; subst. apply N1. rewrite E. apply in_or_app. right. left. reflexivity.
      + cbn [app] in Nd. inversion Nd as [|? ? _ N2]; subst. destruct (IH h1 N2 E I) as (c & ->). exists c. reflexivity.
  Qed.
  Lemma occupied_dec h i : occupied h i \/ ~ occupied h i.
  Proof.
    destruct (existsb (fun x => id_eqb (s_id x) i) h) eqn:B.
    - left. apply existsb_exists in B as (x & I & E). apply id_eqb_eq in E. exists x. auto.
    - right. intros (x & I & E). assert (B' : existsb (fun x => id_eqb (s_id x) i) h = true); [|congruence].
      apply existsb_exists. exists x. split; [exact I|]. apply id_eqb_eq, E.
  Qed.
  Lemma occupied_mono h1 h2 i : occupied h1 i -> occupied (h1 ++ h2) i.
  Proof. intros (x & I & E). exists x. split; [apply grow, I|exact E]. Qed.
  Lemma last_of (is : list Identifier) h : is <> [] -> (forall i, In i is -> occupied h i) ->
    exists a x b, h = a ++ x :: b /\ In (s_id x) is /\ forall i, In i is -> occupied (a ++ [x]) i.
  Proof.
    intros Ne. induction h as [|z h IH] using rev_ind; intros All.
    - exfalso. destruct is as [|i is]; [congruence|]. destruct (All i (or_introl eq_refl)) as (x & [] & _).
    - assert (D : (forall i, In i is -> occupied h i) \/ exists i, In i is /\ ~ occupied h i).
      { clear. induction is as [|i is IH]; [left; intros i []|]. destruct (occupied_dec h i) as [O|O]; [|right; exists i; split; [left; reflexivity|exact O]].
        destruct IH as [IH|(j & J & N)]; [left; intros j [<-|J]; auto|right; exists j; split; [right; exact J|exact N]]. }
      destruct D as [D|(i & Ii & N)].
      + destruct (IH D) as (a & x & b & -> & Ix & X). exists a, x, (b ++ [z]). rewrite <- app_assoc. auto.
      + exists h, z, []. split; [reflexivity|]. split; [|exact All]. destruct (All i Ii) as (x & Ix & Ex).
        apply in_app_or in Ix as [Ix|[<-|[]]]; [exfalso; apply N; exists x; auto|]. rewrite Ex. exact Ii.
  Qed.
  Lemma hist_nodup_tx h : history dbg h -> NoDup h.
  Proof. intros Hh. apply (NoDup_map_inv s_id), (hist_nodup dbg h Hh). Qed.
  (** a transaction of the election found by its identifier *)
  Lemma found h i ty : history dbg h -> occupied h i -> id_election i = id_election e -> id_type i = ty ->
    exists x, In x h /\ inside x /\ s_id x = i /\ tx_type (s_tx x) = ty.
  Proof.
    intros Hh (x & I & E) Ei Et. exists x. split; [exact I|]. split; [unfold SpecRun.inside; rewrite E; exact Ei|]. split; [exact E|].
    pose proof (hist_typed dbg h x Hh I) as Ty. unfold s_type in Ty. congruence.
  Qed.
  (** after the last of several transactions, some node answers it where all of them are recorded *)
  Lemma answer_last h (is : list Identifier) : honest h -> history dbg h -> is <> [] ->
    (forall i, In i is -> id_election i = id_election e /\ occupied h i) ->
    exists x, In x h /\ inside x /\ In (s_id x) is
      /\ forall h1 h2, h = h1 ++ h2 -> In x h1 -> honest h1 /\ history dbg h1 /\ forall i, In i is -> occupied h1 i.
  Proof.
    intros Ho Hh Ne All. destruct (last_of is h Ne (fun i I => proj2 (All i I))) as (a & x & b & Ea & Ix & Oc).
    assert (Ins : inside x) by (apply (All _ Ix)). assert (I : In x h) by (rewrite Ea; apply in_or_app; right; left; reflexivity).
    exists x. split; [exact I|]. split; [exact Ins|]. split; [exact Ix|]. intros h1 h2 E I1. rewrite E in Ho, Hh.
    split; [apply (honest_prefix h2 h1 x Ho I1 Ins)|]. split; [apply (hist_prefix dbg _ _ Hh)|].
    assert (Eq : h1 ++ h2 = a ++ x :: b) by congruence.
    destruct (prefix_in h1 h2 a b x (hist_nodup_tx _ Hh) Eq I1) as (c & ->). intros i Ii. apply occupied_mono, Oc, Ii.
  Qed.
  Lemma ids_nonempty {X} (f : Trustee * ed_secret -> X) (Q : people) : (exists p, In p Q) -> map f Q <> [].
  Proof. intros (p & I). destruct Q; [destruct I|discriminate]. Qed.
  Lemma node_of p : In p T -> node (snd p).
  Proof. intros I. left. exists p. auto. Qed.

  Lemma coms_complete h : honest h -> history dbg h -> (forall p, In p T -> occupied h (commitment_build_id e (idx p))) -> coms_done h.
  Proof.
    intros Ho Hh Oc p Ip. destruct (found h _ TKeyGenCommitment Hh (Oc p Ip) eq_refl eq_refl) as (x & Ix & Ins & Ex & Ty).
    destruct (s_tx x) as [t|t|t|t|t|t|t|t|t|t] eqn:Tx; try discriminate Ty.
    destruct (inside_commitment h x t Ho Hh Ix Ins Tx) as (p' & Ip' & ->). exists x. split; [exact Ix|]. split; [exact Ex|]. rewrite Tx. f_equal. f_equal.
    apply T_idx; [exact Ip'|exact Ip|]. unfold s_id in Ex. rewrite Tx in Ex. cbn [tx_id com_tx kc_id] in Ex. unfold commitment_build_id in Ex.
    rewrite !id_new_some in Ex. injection Ex as Ex. exact Ex.
  Qed.
  Lemma shs_complete h : honest h -> history dbg h -> (forall p, In p T -> occupied h (share_build_id e (idx p))) -> exists shs, shs_done h shs.
  Proof.
    intros Ho Hh Oc. destruct (shares_total dbg h _ Hh (stored_holds h) e) as (shs & L & Rg). exists shs. destruct (list_shares h shs Ho Hh L) as [X _]. apply X.
    rewrite number. apply (listing_full XShare TKeyGenShare share_of h shs Hh Rg); [| |exact Oc].
    - intros x a Ix Ins E. apply (inside_share h x a); assumption.
    - intros p a (nonces & m & _ & ->). reflexivity.
  Qed.
  Lemma pks_complete h : honest h -> history dbg h -> (forall p, In p T -> occupied h (pubkey_build_id e (idx p))) -> exists pks, pks_done h pks.
  Proof.
    intros Ho Hh Oc. destruct (pubkeys_total dbg h _ Hh (stored_holds h) e) as (pks & L & Rg). exists pks. destruct (list_pubkeys h pks Ho Hh L) as [X _]. apply X.
    rewrite number. apply (listing_full XPublicKey TKeyGenPublicKey (fun p q => exists shs, shs_done h shs /\ pub_of shs p q) h pks Hh Rg); [| |exact Oc].
    - intros x a Ix Ins E. destruct (inside_pubkey h x a Ho Hh Ix Ins E) as (p & shs & Ip & D). exists p. split; [exact Ip|]. exists shs. exact D.
    - intros p a (shs & _ & l & pf & _ & _ & ->). reflexivity.
  Qed.
  Lemma t_election_ok h : honest h -> history dbg h -> t_election (ms_store (ms_from h)) e = Ok el.
  Proof. intros Ho Hh. apply (t_election_iff _ _ (stored_holds h)), stored_election; assumption. Qed.
  Lemma T_public p : In p T -> tr_public_key (fst p) = node_key (snd p).
  Proof. intros I. apply (su_keys _ _ _ SU p I). Qed.
  Lemma one_makes p t : In p T -> tx_public t = Some (tr_public_key (fst p)) -> exists y, one (snd p) t = Ok [y] /\ s_tx y = t.
  Proof.
    intros Ip Pu. destruct (one_total (snd p) t) as (l & L).
    { intros k E. rewrite Pu in E. injection E as <-. apply T_public, Ip. }
    destruct (one_ex (snd p) t l L) as (y & -> & Ty). eauto.
  Qed.
  (** what nodes make of complete listings *)
  Lemma makes_share h p c r : honest h -> history dbg h -> In p T -> kc_election c = e -> coms_done h ->
    exists y m, process_keygen_commitment (snd p) r (ms_store (ms_from h)) c = Ok [y] /\ s_tx y = XShare (share_tx p m).
  Proof.
    intros Ho Hh Ip Ec D. unfold process_keygen_commitment. rewrite Ec, (t_election_ok h Ho Hh). cbn [bind]. rewrite (T_full p Ip).
    destruct (commitments_listed h Hh) as (cs & L). destruct (list_commitments h cs Ho Hh L) as [_ U]. rewrite (U D) in L. rewrite L. cbn [bind].
    rewrite map_length, number, Nat.eqb_refl. destruct cs_keys as [-> ->].
    destruct (C51_shares_made S DH Op Sc T (el_threshold el) e (su_ceremony _ _ _ SU) TaskError p (r_nonce r) Ip) as (m & G & _). rewrite G. cbn [bind].
    destruct (one_makes p (XShare (share_tx p m)) Ip eq_refl) as (y & Y & Ty). exists y, m. split; [exact Y|exact Ty].
  Qed.
  Lemma makes_pubkey h p sh shs : honest h -> history dbg h -> In p T -> ks_election sh = e -> shs_done h shs ->
    exists y pf, process_keygen_share (snd p) (ms_store (ms_from h)) sh = Ok [y] /\ s_tx y = XPublicKey (pubkey_tx p pf).
  Proof.
    intros Ho Hh Ip Ec D. unfold process_keygen_share. rewrite Ec, (t_election_ok h Ho Hh). cbn [bind]. rewrite (T_full p Ip).
    destruct (shares_total dbg h _ Hh (stored_holds h) e) as (shs' & L & _). destruct (list_shares h shs' Ho Hh L) as [_ U]. rewrite (U shs D) in L. rewrite L. cbn [bind].
    pose proof (forall2_len _ _ _ D) as Ln. rewrite number, Ln, Nat.eqb_refl. cbn [negb].
    destruct (commitments_listed h Hh) as (cs & Lc). destruct (list_commitments h cs Ho Hh Lc) as [_ Uc]. rewrite (Uc (shs_coms h shs Ho Hh D)) in Lc. rewrite Lc. cbn [bind].
    destruct cs_keys as [-> ->]. destruct (@shares_found TaskError shs p (done_of _ _ D) Ip) as (l & Sl). rewrite Sl. cbn [bind].
    destruct (key_made shs p l (done_of _ _ D) Ip (shares_sent shs p l (done_of _ _ D) Sl)) as (pf & G). rewrite G. cbn [map_err bind fst snd].
    destruct (one_makes p (XPublicKey (pubkey_tx p pf)) Ip eq_refl) as (y & Y & Ty). exists y, pf. split; [exact Y|exact Ty].
  Qed.
  Lemma makes_enckey h sk q pks : honest h -> history dbg h -> ed_public sk = el_authority el -> kp_election q = e -> kp_key q = ts_key S A -> pks_done h pks ->
    exists y, process_keygen_public_key sk (ms_store (ms_from h)) q = Ok [y] /\ s_tx y = XEncryptionKey enckey_tx.
  Proof.
    intros Ho Hh Au Eq Kq D. unfold process_keygen_public_key. rewrite Eq, (t_election_ok h Ho Hh). cbn [bind].
    assert (B : pk_eqb (el_authority el) (node_key sk) = true) by (apply pk_eqb_eq; auto). rewrite B.
    destruct (pubkeys_total dbg h _ Hh (stored_holds h) e) as (pks' & L & _). destruct (list_pubkeys h pks' Ho Hh L) as [_ U]. rewrite (U pks D) in L. rewrite L. cbn [bind].
    destruct D as (shs & _ & F). pose proof (forall2_len _ _ _ F) as Ln. rewrite number, Ln, Nat.eqb_refl. rewrite Kq.
    destruct (one_total sk (XEncryptionKey enckey_tx)) as (l & L1); [cbn; intros k E; injection E as <-; auto|].
    destruct (one_ex sk _ _ L1) as (y & -> & Ty). exists y. split; [exact L1|exact Ty].
  Qed.

  Lemma T_some : exists p, In p T.
  Proof. pose proof (ce_quorum _ _ (su_ceremony _ _ _ SU)) as Q. destruct T as [|p T']; [cbn in Q; lia|exists p; left; reflexivity]. Qed.
  (** ** key generation ends: with the encryption key, if the authority has a node *)
  Theorem keys_made h ska : honest h -> keys_answered dbg el T ska h ->
    at_id h (slot0 e TEncryptionKey) (XEncryptionKey enckey_tx) /\ (exists shs, shs_done h shs) /\ exists pks, pks_done h pks.
  Proof.
    intros Ho [Nda Au Kan Kal]. pose proof (honest_history h Ho) as Hh.
    (* commitments *)
    assert (Oc : forall p, In p T -> occupied h (commitment_build_id e (idx p))).
    { intros p Ip. destruct (election_at h Ho) as (x & Ix & Ex & Tx). assert (Ins : inside x) by (unfold SpecRun.inside; rewrite Ex; reflexivity).
      pose proof (Kan x p Ix Ins Ip) as An. rewrite Tx in An. destruct An as (h1 & h2 & r & l & E & I1 & G & Oc).
      unfold generate_transactions in G. rewrite Tx in G. unfold process_election in G. rewrite (T_full p Ip) in G.
      destruct (one_makes p (XCommitment (com_tx p)) Ip eq_refl) as (y & Y & Ty).
      unfold com_tx in Y. rewrite Y in G. injection G as <-. specialize (Oc y (or_introl eq_refl)). unfold s_id in Oc. rewrite Ty in Oc. exact Oc. }
    (* shares *)
    assert (Os : forall p, In p T -> occupied h (share_build_id e (idx p))).
    { intros p Ip. destruct (answer_last h (map (fun p => commitment_build_id e (idx p)) T) Ho Hh (ids_nonempty _ _ T_some)) as (x & Ix & Ins & Iid & Pre).
      { intros i I. apply in_map_iff in I as (p0 & <- & I0). split; [reflexivity|apply Oc, I0]. }
      apply in_map_iff in Iid as (p0 & Eid & Ip0). pose proof (hist_typed dbg h x Hh Ix) as Ty. rewrite <- Eid in Ty.
      destruct (s_tx x) as [t|t|t|t|t|t|t|t|t|t] eqn:Tx; unfold s_type in Ty; rewrite Tx in Ty; try discriminate Ty.
      pose proof (Kan x p Ix Ins Ip) as An. rewrite Tx in An. destruct An as (h1 & h2 & r & l & E & I1 & G & Ocl).
      destruct (Pre h1 h2 E I1) as (Ho1 & Hh1 & Oc1). destruct (inside_commitment h x t Ho Hh Ix Ins Tx) as (p1 & Ip1 & Et).
      assert (D1 : coms_done h1). { apply coms_complete; [exact Ho1|exact Hh1|]. intros p2 Ip2. apply Oc1, in_map_iff. exists p2. auto. }
      destruct (makes_share h1 p t r Ho1 Hh1 Ip ltac:(rewrite Et; reflexivity) D1) as (y & m & Y & Tyy).
      unfold generate_transactions in G. rewrite Tx in G. rewrite Y in G. injection G as <-. specialize (Ocl y (or_introl eq_refl)). unfold s_id in Ocl. rewrite Tyy in Ocl. exact Ocl. }
    destruct (shs_complete h Ho Hh Os) as (shs & Ds).
    (* public keys *)
    assert (Op' : forall p, In p T -> occupied h (pubkey_build_id e (idx p))).
    { intros p Ip. destruct (answer_last h (map (fun p => share_build_id e (idx p)) T) Ho Hh (ids_nonempty _ _ T_some)) as (x & Ix & Ins & Iid & Pre).
      { intros i I. apply in_map_iff in I as (p0 & <- & I0). split; [reflexivity|apply Os, I0]. }
      apply in_map_iff in Iid as (p0 & Eid & Ip0). pose proof (hist_typed dbg h x Hh Ix) as Ty. rewrite <- Eid in Ty.
      destruct (s_tx x) as [t|t|t|t|t|t|t|t|t|t] eqn:Tx; unfold s_type in Ty; rewrite Tx in Ty; try discriminate Ty.
      pose proof (Kan x p Ix Ins Ip) as An. rewrite Tx in An. destruct An as (h1 & h2 & r & l & E & I1 & G & Ocl).
      destruct (Pre h1 h2 E I1) as (Ho1 & Hh1 & Oc1). destruct (inside_share h x t Ho Hh Ix Ins Tx) as [(p1 & Ip1 & Sh) _]. assert (Et : ks_election t = e) by (destruct Sh as (? & ? & _ & ->); reflexivity).
      destruct (shs_complete h1 Ho1 Hh1) as (shs1 & D1). { intros p2 Ip2. apply Oc1, in_map_iff. exists p2. auto. }
      destruct (makes_pubkey h1 p t shs1 Ho1 Hh1 Ip Et D1) as (y & pf & Y & Tyy).
      unfold generate_transactions in G. rewrite Tx in G. rewrite Y in G. injection G as <-. specialize (Ocl y (or_introl eq_refl)). unfold s_id in Ocl. rewrite Tyy in Ocl. exact Ocl. }
    destruct (pks_complete h Ho Hh Op') as (pks & Dp). split; [|eauto].
    (* the encryption key *)
    destruct (answer_last h (map (fun p => pubkey_build_id e (idx p)) T) Ho Hh (ids_nonempty _ _ T_some)) as (x & Ix & Ins & Iid & Pre).
    { intros i I. apply in_map_iff in I as (p0 & <- & I0). split; [reflexivity|apply Op', I0]. }
    apply in_map_iff in Iid as (p0 & Eid & Ip0). pose proof (hist_typed dbg h x Hh Ix) as Ty. rewrite <- Eid in Ty.
    destruct (s_tx x) as [t|t|t|t|t|t|t|t|t|t] eqn:Tx; unfold s_type in Ty; rewrite Tx in Ty; try discriminate Ty.
    pose proof (Kal x Ix Ins) as An. rewrite Tx in An. destruct An as (h1 & h2 & r & l & E & I1 & G & Ocl).
    destruct (Pre h1 h2 E I1) as (Ho1 & Hh1 & Oc1). destruct (inside_pubkey h x t Ho Hh Ix Ins Tx) as (p1 & shs' & Ip1 & _ & lp & pf & _ & _ & Et).
    destruct (pks_complete h1 Ho1 Hh1) as (pks1 & D1). { intros p2 Ip2. apply Oc1, in_map_iff. exists p2. auto. }
    destruct (makes_enckey h1 ska t pks1 Ho1 Hh1 Au ltac:(rewrite Et; reflexivity) ltac:(rewrite Et; reflexivity) D1) as (y & Y & Tyy).
    unfold generate_transactions in G. rewrite Tx in G. rewrite Y in G. injection G as <-. specialize (Ocl y (or_introl eq_refl)). unfold s_id in Ocl. rewrite Tyy in Ocl.
    cbn [tx_id enckey_tx ek_id] in Ocl. destruct (found h _ TEncryptionKey Hh Ocl eq_refl eq_refl) as (z & Iz & Insz & Ez & Tz).
    destruct (s_tx z) as [k|k|k|k|k|k|k|k|k|k] eqn:Txz; try discriminate Tz. destruct (inside_enckey h z k Ho Hh Iz Insz Txz) as [-> _].
    exists z. split; [exact Iz|]. split; [exact Ez|exact Txz].
  Qed.

  (** ** the tally ends: with a decryption of every row *)
  Definition parts_there (h : list STx) (Q : people) (up : Identifier) (c : u32) (ix : u16) : Prop :=
    forall q, In q Q -> occupied h (partial_build_id e up c ix (idx q)).
  Lemma produced h q r c om l : produce_partials (snd q) r (ms_store (ms_from h)) el (fst q) c om = Ok l ->
    match om with
    | Some m => forall j row, nth_error (mx_out m) j = Some row ->
        exists y, In y l /\ s_id y = partial_build_id e (mx_id m) c (u_of 2 (N.of_nat j)) (idx q)
    | None => forall vs v ev, range_is (stored h) e TVote XVote vs -> In v vs -> In ev (vt_votes v) ->
        exists y, In y l /\ s_id y = partial_build_id e (vt_id v) (ev_contest ev) (u_of 2 0) (idx q)
    end.
  Proof.
    intros G. unfold produce_partials in G. apply bind_ok in G as (shs & _ & G). apply bind_ok in G as (cs & _ & G). apply bind_ok in G as (shares & _ & G).
    assert (Main : forall srcs up ix c' row, partials_from (snd q) r 0 (fst q) (x_keys_of cs) (commitments_of cs) shares e srcs = Ok l ->
              In (up, ix, c', row) srcs -> exists y, In y l /\ s_id y = partial_build_id e up c' ix (idx q)).
    { intros srcs up ix c' row P I. apply partials_from_in in P.
      destruct (Forall2_in_r _ _ _ _ P I) as (y & Iy & i & ds & _ & Sg). exists y. split; [exact Iy|]. destruct (tsign_tx _ _ _ Sg) as (Ty & _).
      unfold s_id. rewrite Ty. reflexivity. }
    destruct om as [m|].
    - intros j row J. apply (Main _ _ _ _ row G). apply (rows_from_all (mx_id m) c (mx_out m) 0 j row J).
    - apply bind_ok in G as (vs' & Vs & G). intros vs v ev Rv Iv Ie. apply (t_multiple_iff _ _ (stored_holds h) _ _ _ _ _ as_vote_iff) in Vs.
      assert (vs' = vs).
      { unfold range_is in Rv, Vs. rewrite Rv in Vs. clear -Vs. revert vs' Vs. induction vs as [|a vs IH]; intros [|b vs'] E; try discriminate E; [reflexivity|].
        cbn [map] in E. injection E as -> E. f_equal. apply IH, E. }
      subst vs'. apply (Main _ _ _ _ (ev_selections ev) G). apply in_flat_map. exists v. split; [exact Iv|]. apply in_map_iff. exists ev. auto.
  Qed.
  Lemma end_found h : honest h -> history dbg h -> ended el h ->
    exists x ve, In x h /\ inside x /\ s_tx x = XVotingEnd ve /\ ve_election ve = e.
  Proof.
    intros Ho Hh Ed. destruct (found h _ TVotingEnd Hh Ed eq_refl eq_refl) as (x & Ix & Ins & _ & Ty).
    destruct (s_tx x) as [t|t|t|t|t|t|t|t|t|t] eqn:Tx; try discriminate Ty. exists x, t. destruct (inside_end h x t Ho Hh Ix Ins Tx) as (V & _). auto.
  Qed.
  Lemma votes_parts h Q vs v ev : honest h -> history dbg h -> ended el h -> quorum dbg el T Q h -> el_mix_config el = None ->
    range_is (stored h) e TVote XVote vs -> In v vs -> In ev (vt_votes v) -> parts_there h Q (vt_id v) (ev_contest ev) (u_of 2 0).
  Proof.
    intros Ho Hh Ed Qu Mc Rv Iv Ie q Iq. pose proof (qu_trustees _ _ _ _ _ Qu q Iq) as It.
    destruct (end_found h Ho Hh Ed) as (x & ve & Ix & Ins & Tx & Ee). pose proof (qu_answers _ _ _ _ _ Qu x q Ix Ins Iq) as An. rewrite Tx in An.
    destruct An as (h1 & h2 & r & l & E & I1 & G & Oc). rewrite E in Ho, Hh, Rv. pose proof (honest_prefix h2 h1 x Ho I1 Ins) as Ho1. pose proof (hist_prefix dbg _ _ Hh) as Hh1.
    destruct (inside_end h1 x ve Ho1 Hh1 I1 Ins Tx) as (_ & Ed1 & _). apply (votes_frozen h1 h2 vs Hh Ed1) in Rv.
    unfold generate_transactions in G. rewrite Tx in G. unfold process_voting_end in G. rewrite Ee, (t_election_ok h1 Ho1 Hh1) in G. cbn [bind] in G.
    rewrite (T_full q It), Mc in G. pose proof (su_contests _ _ _ SU) as Nc. destruct (el_contests el) as [|c0 cs]; [congruence|].
    destruct (produced h1 q r _ None l G vs v ev Rv Iv Ie) as (y & Iy & Ey). rewrite <- Ey. apply Oc, Iy.
  Qed.
  Lemma slot_last up c ix b b' : row_type (id_type up) -> firstn 15 (arr_l (slot_unique up c ix b)) = firstn 15 (arr_l (slot_unique up c ix b')).
  Proof.
    intros Rt. rewrite <- (with_last_slot _ _ _ b' b Rt), with_last_l, firstn_app, firstn_firstn, firstn_length, arr_len, Nat.min_id.
    change (15 - Nat.min 15 16) with 0. rewrite firstn_O, app_nil_r. reflexivity.
  Qed.
  Lemma makes_decryption h q q1 row p parts pks sels : honest h -> history dbg h -> In q T -> In q1 T -> part_of h q1 row p -> pks_done h pks ->
    map s_tx (slot_range h p) = map XPartial parts ->
    (forall p', In p' parts -> exists q', In q' T /\ part_of h q' row p') -> NoDup (map pd_trustee parts) ->
    (u8v (el_threshold el) <= N.of_nat (length parts))%N -> shows sels row ->
    exists y d, process_partial_decryption (snd q) (ms_store (ms_from h)) p = Ok [y] /\ s_tx y = XDecryption d
      /\ dc_id d = decryption_build_id e (pd_upstream p) (pd_contest p) (pd_index p).
  Proof.
    intros Ho Hh Iq Iq1 Pp Dp Ep Of Nd Th Sh. unfold process_partial_decryption.
    assert (Ee : pd_election p = e) by (destruct Pp as (shs & l & ds & _ & _ & _ & _ & _ & ->); reflexivity).
    rewrite Ee, (t_election_ok h Ho Hh). cbn [bind]. rewrite (T_full q Iq).
    rewrite (h_range _ _ (stored_holds h)) by apply slot_start_stop. fold (slot_range h p). cbn [lift map_err bind].
    pose proof (f_equal (@length _) Ep) as Ln. rewrite !map_length in Ln.
    assert (B : Nat.leb (N.to_nat (u8v (el_threshold el))) (length (slot_range h p)) = true) by (apply Nat.leb_le; lia). rewrite B.
    rewrite (map_into as_partial XPartial _ _ as_partial_iff Ep). cbn [bind].
    rewrite (t_row_at h p row (proj1 (part_named _ _ _ _ Pp))). cbn [bind].
    destruct (pubkeys_total dbg h _ Hh (stored_holds h) e) as (pks' & L & _). destruct (list_pubkeys h pks' Ho Hh L) as [_ U]. rewrite (U pks Dp) in L. rewrite L. cbn [bind].
    assert (Dv : decrypt_vote row (el_threshold el) (get_full_trustees el) pks parts = Ok sels).
    { rewrite decrypt_vote_full. apply (parts_decrypt h row parts pks sels Ho Hh Dp Of Nd Th Sh). }
    rewrite Dv. cbn [map_err bind].
    match goal with |- context [one (snd q) ?t] => destruct (one_total (snd q) t) as (l & L1) end; [cbn [tx_public]; congruence|].
    destruct (one_ex _ _ _ L1) as (y & -> & Ty). exists y. eexists. split; [exact L1|]. split; [exact Ty|reflexivity].
  Qed.
  Lemma idx_nodup (Q : people) : incl Q T -> NoDup Q -> NoDup (map (fun q => idx q) Q).
  Proof.
    intros In1 Nd. induction Nd as [|q Q N Nd IH]; [constructor|]. cbn [map]. constructor; [|apply IH; intros z Iz; apply In1; right; exact Iz].
    intros I. apply in_map_iff in I as (q' & Eq & Iq'). apply N. rewrite <- (T_idx q' q); [exact Iq'|apply In1; right; exact Iq'|apply In1; left; reflexivity|exact Eq].
  Qed.
  Lemma decrypt_slot h Q up c ix row sels : honest h -> history dbg h -> quorum dbg el T Q h -> named h up c ix row -> parts_there h Q up c ix ->
    shows sels row ->
    exists x d, In x h /\ s_tx x = XDecryption d /\ dc_election d = e /\ dc_upstream d = up /\ dc_contest d = c /\ dc_index d = ix /\ dc_vote d = sels.
  Proof.
    intros Ho Hh Qu Na Pt Sh. pose proof (row_at_type _ _ _ _ _ _ (proj1 Na)) as Rt.
    assert (Qne : exists q, In q Q).
    { pose proof (qu_enough _ _ _ _ _ Qu) as Q1. pose proof (ce_quorum _ _ (su_ceremony _ _ _ SU)) as Q2. destruct Q as [|q Q']; [cbn in Q1; lia|]. exists q. left. reflexivity. }
    destruct (answer_last h (map (fun q => partial_build_id e up c ix (idx q)) Q) Ho Hh (ids_nonempty _ _ Qne)) as (x & Ix & Ins & Iid & Pre).
    { intros i I. apply in_map_iff in I as (q & <- & Iq). split; [reflexivity|apply Pt, Iq]. }
    apply in_map_iff in Iid as (q0 & Eid & Iq0). pose proof (hist_typed dbg h x Hh Ix) as Ty. rewrite <- Eid in Ty.
    destruct (s_tx x) as [t|t|t|t|t|t|t|t|p|t] eqn:Tx; unfold s_type in Ty; rewrite Tx in Ty; try discriminate Ty. clear Ty.
    pose proof (qu_answers _ _ _ _ _ Qu x q0 Ix Ins Iq0) as An. rewrite Tx in An. destruct An as (h1 & h2 & r & l & E & I1 & G & Oc).
    destruct (Pre h1 h2 E I1) as (Ho1 & Hh1 & Oc1). destruct (inside_partial h1 x p Ho1 Hh1 I1 Ins Tx) as (_ & (pks & Dp) & q1 & row1 & Iq1 & Pp).
    (* a partial decryption under one of these identifiers is one of the row *)
    assert (Same : forall y p' q' row' (q : Trustee * ed_secret), In y h1 -> s_tx y = XPartial p' -> s_id y = partial_build_id e up c ix (idx q) -> part_of h1 q' row' p' ->
              row' = row /\ pd_upstream p' = up /\ pd_contest p' = c /\ pd_index p' = ix /\ pd_trustee p' = idx q).
    { intros y p' q' row' q Iy Typ Ey Pp'. assert (Pp2 : part_of h q' row' p') by (rewrite E; apply part_mono; [rewrite <- E; exact Hh|exact Pp']).
      pose proof (part_named _ _ _ _ Pp2) as Na'. pose proof (row_at_type _ _ _ _ _ _ (proj1 Na')) as Rt'.
      assert (Ei : slot_unique (pd_upstream p') (pd_contest p') (pd_index p') (pd_trustee p') = slot_unique up c ix (idx q)).
      { unfold s_id in Ey. rewrite Typ in Ey. cbn [tx_id] in Ey. destruct Pp' as (shs' & l' & ds' & _ & _ & _ & _ & _ & Epp). rewrite Epp in Ey. cbn [pd_id] in Ey.
        unfold partial_build_id in Ey. rewrite !id_new_some in Ey. apply (f_equal id_unique) in Ey. cbn [id_unique] in Ey.
        rewrite Epp at 4. cbn [pd_trustee]. exact Ey. }
      assert (Ei0 : slot_unique (pd_upstream p') (pd_contest p') (pd_index p') x00 = slot_unique up c ix x00).
      { rewrite <- (with_last_slot _ _ _ (pd_trustee p') x00 Rt'), <- (with_last_slot _ _ _ (idx q) x00 Rt). rewrite Ei. reflexivity. }
      destruct (slot_same h _ _ _ _ _ _ _ _ Ho Hh Na' Na Ei0) as (X1 & X2 & X3 & X4).
      destruct (slot_unique_inj _ _ _ _ _ _ _ _ Rt' Rt Ei) as (_ & _ & X5 & _). auto 6. }
    destruct (Same x p q1 row1 q0 I1 Tx (eq_sym Eid) Pp) as (-> & Eu & Ec & Ei & _).
    destruct (slot_parts h1 q1 row p Ho1 Hh1 Iq1 Pp) as (parts & Ep & Of & Ndp & All).
    assert (Th : (u8v (el_threshold el) <= N.of_nat (length parts))%N).
    { pose proof (qu_enough _ _ _ _ _ Qu) as Q1. assert (Le : length Q <= length parts); [|lia].
      rewrite <- (map_length (fun q => idx q) Q), <- (map_length pd_trustee parts).
      apply NoDup_incl_length; [apply idx_nodup; [apply (qu_trustees _ _ _ _ _ Qu)|apply (qu_distinct _ _ _ _ _ Qu)]|].
      intros b Ib. apply in_map_iff in Ib as (q & <- & Iq).
      assert (Oq : occupied h1 (partial_build_id e up c ix (idx q))) by (apply Oc1, in_map_iff; exists q; auto).
      destruct (found h1 _ TPartialDecryption Hh1 Oq eq_refl eq_refl) as (y & Iy & Insy & Ey & Tyy).
      destruct (s_tx y) as [t|t|t|t|t|t|t|t|p'|t] eqn:Txy; try discriminate Tyy.
      destruct (inside_partial h1 y p' Ho1 Hh1 Iy Insy Txy) as (_ & _ & q' & row' & Iq' & Pp').
      destruct (Same y p' q' row' q Iy Txy Ey Pp') as (-> & Eu' & Ec' & Ei' & Et').
      apply in_map_iff. exists p'. split; [exact Et'|]. apply (All y p' q' Iy Txy Iq' Pp'); congruence. }
    destruct (makes_decryption h1 q0 q1 row p parts pks sels Ho1 Hh1 (qu_trustees _ _ _ _ _ Qu q0 Iq0) Iq1 Pp Dp Ep Of Ndp Th Sh) as (y & d0 & Y & Tyd & Ed0).
    unfold generate_transactions in G. rewrite Tx in G. rewrite Y in G. injection G as <-. specialize (Oc y (or_introl eq_refl)).
    unfold s_id in Oc. rewrite Tyd in Oc. cbn [tx_id] in Oc. rewrite Ed0, Eu, Ec, Ei in Oc.
    destruct (found h _ TDecryption Hh Oc eq_refl eq_refl) as (z & Iz & Insz & Ez & Tz).
    destruct (s_tx z) as [t|t|t|t|t|t|t|t|t|d] eqn:Txz; try discriminate Tz.
    destruct (inside_decryption h z d Ho Hh Iz Insz Txz) as (D1 & D2 & row' & Ro' & Iu' & D3).
    assert (Sl : slot_unique (dc_upstream d) (dc_contest d) (dc_index d) x00 = slot_unique up c ix x00).
    { unfold s_id in Ez. rewrite Txz in Ez. cbn [tx_id] in Ez. rewrite D2 in Ez. unfold decryption_build_id in Ez. rewrite !id_new_some in Ez. apply (f_equal id_unique) in Ez. exact Ez. }
    destruct (slot_same h _ _ _ _ _ _ _ _ Ho Hh (conj Ro' Iu') Na Sl) as (-> & X2 & X3 & X4).
    exists z, d. auto 8.
  Qed.

  (** *** what is published *)
  Lemma perm_by_key {Ky X Y} (D : list X) (key : X -> Ky) (val : X -> Y) (L : list Ky) (cast : list Y) :
    NoDup (map key D) -> NoDup L -> (forall k, In k L -> In k (map key D)) -> (forall d, In d D -> In (key d) L) ->
    Forall2 (fun k y => forall d, In d D -> key d = k -> val d = y) L cast -> Permutation (map val D) cast.
  Proof.
    intros N1 N2 I1 I2 F. assert (P : Permutation L (map key D)).
    { apply NoDup_Permutation; [exact N2|exact N1|]. intros k. split; [apply I1|]. intros J. apply in_map_iff in J as (d & <- & Id). apply I2, Id. }
    apply Forall2_flip in F. destruct (forall2_perm _ _ _ F _ P) as (cast' & P' & F'). apply Permutation_sym.
    eapply Permutation_trans; [exact P'|]. assert (E : map val D = cast'); [|rewrite E; apply Permutation_refl].
    clear -F'. assert (G : forall D0, incl D0 D -> forall cs, Forall2 (fun y k => forall d, In d D -> key d = k -> val d = y) cs (map key D0) -> map val D0 = cs).
    { induction D0 as [|d D0 IH]; intros Inc cs F; inversion F as [|y k cs1 ks1 H1 F1]; subst; [reflexivity|]. cbn [map]. f_equal.
      - apply H1; [apply Inc; left; reflexivity|reflexivity].
      - apply IH; [intros z Iz; apply Inc; right; exact Iz|exact F1]. }
    apply (G D (incl_refl _) cast' F').
  Qed.
  Lemma votes_of_in h v : In v (votes_of el h) <-> exists x, In x h /\ s_tx x = XVote v /\ vt_election v = e.
  Proof.
    unfold votes_of. rewrite in_flat_map. split.
    - intros (x & Ix & I). exists x. destruct (s_tx x) as [t|t|t|t|t|t|t|t|t|t]; try destruct I. destruct (id_eqb (vt_election t) e) eqn:B; [|destruct I].
      destruct I as [->|[]]. apply id_eqb_eq in B. auto.
    - intros (x & Ix & Tx & Ee). exists x. split; [exact Ix|]. rewrite Tx. assert (B : id_eqb (vt_election v) e = true) by (apply id_eqb_eq, Ee).
      rewrite B. left. reflexivity.
  Qed.
  Lemma decs_of_in h c d : In d (decryptions_of el h c) <-> exists x, In x h /\ s_tx x = XDecryption d /\ dc_election d = e /\ dc_contest d = c.
  Proof.
    unfold decryptions_of. rewrite in_flat_map. split.
    - intros (x & Ix & I). exists x. destruct (s_tx x) as [t|t|t|t|t|t|t|t|t|t]; try destruct I.
      destruct (id_eqb (dc_election t) e && u_eqb (dc_contest t) c)%bool eqn:B; [|destruct I]. apply andb_true_iff in B as [B1 B2].
      destruct I as [->|[]]. apply id_eqb_eq in B1. apply u_eqb_eq in B2. auto.
    - intros (x & Ix & Tx & Ee & Ec). exists x. split; [exact Ix|]. rewrite Tx.
      assert (B : (id_eqb (dc_election d) e && u_eqb (dc_contest d) c)%bool = true) by (apply andb_true_iff; split; [apply id_eqb_eq, Ee|apply u_eqb_eq, Ec]).
      rewrite B. left. reflexivity.
  Qed.
  Lemma pick_nodup {X} (f : STx -> list X) (g : X -> Identifier) (h : list STx) : NoDup (map s_id h) ->
    (forall x, f x = [] \/ exists a, f x = [a] /\ g a = s_id x) -> NoDup (map g (flat_map f h)).
  Proof.
    intros Nd Pf. assert (Inc : forall h i, In i (map g (flat_map f h)) -> In i (map s_id h)).
    { induction h0 as [|x h0 IH]; intros i I; [destruct I|]. cbn [flat_map] in I. rewrite map_app in I. apply in_app_or in I as [I|I]; [|right; apply IH, I].
      left. destruct (Pf x) as [E|(a & E & G)]; rewrite E in I; [destruct I|]. destruct I as [<-|[]]. auto. }
    induction h as [|x h IH]; [constructor|]. cbn [map] in Nd. inversion Nd as [|? ? N1 N2]; subst. specialize (IH N2).
    cbn [flat_map]. destruct (Pf x) as [E|(a & E & G)]; rewrite E; [exact IH|]. cbn [app map]. constructor; [|exact IH].
    rewrite G. intros I. apply N1, Inc, I.
  Qed.
  Lemma votes_nodup h : history dbg h -> NoDup (map vt_id (votes_of el h)).
  Proof.
    intros Hh. apply pick_nodup; [apply (hist_nodup dbg h Hh)|]. intros x. unfold s_id. destruct (s_tx x) as [t|t|t|t|t|t|t|t|t|t]; auto.
    destruct (id_eqb (vt_election t) e); [right; exists t; auto|auto].
  Qed.
  Lemma decs_nodup h c : history dbg h -> NoDup (map dc_id (decryptions_of el h c)).
  Proof.
    intros Hh. apply pick_nodup; [apply (hist_nodup dbg h Hh)|]. intros x. unfold s_id. destruct (s_tx x) as [t|t|t|t|t|t|t|t|t|t]; auto.
    destruct (id_eqb (dc_election t) e && u_eqb (dc_contest t) c)%bool; [right; exists t; auto|auto].
  Qed.
  Lemma named_inside h x : history dbg h -> In x h -> match s_tx x with XVote v => vt_election v = e | XDecryption d => dc_election d = e | _ => False end -> inside x.
  Proof.
    intros Hh I N. destruct (hist_accepted dbg h x Hh I) as (pre & post & _ & _ & _ & Va). apply (validate_iff _ _ (stored_holds pre)) in Va as (_ & _ & Va).
    unfold SpecRun.inside, s_id. destruct (s_tx x) as [t|t|t|t|t|t|t|t|t|t]; try contradiction; cbn [tx_id].
    - destruct Va as (el0 & _ & (Ei & _) & _). congruence.
    - destruct Va as (el0 & row & pks & parts & _ & Ei & _). rewrite Ei, N. reflexivity.
  Qed.
  (** the votes in the order of the ledger and of the store *)
  Lemma votes_perm h vs : honest h -> history dbg h -> range_is (stored h) e TVote XVote vs -> Permutation (votes_of el h) vs.
  Proof.
    intros Ho Hh Rv. apply NoDup_Permutation.
    - apply (NoDup_map_inv vt_id), votes_nodup, Hh.
    - apply (NoDup_map_inv vt_id). pose proof (range_votes_ids _ _ (stored_holds h) e vs Rv) as X. apply X.
    - intros v. rewrite votes_of_in. split.
      + intros (x & Ix & Tx & Ee). assert (Ins : inside x) by (apply (named_inside h x Hh Ix); rewrite Tx; exact Ee).
        pose proof (hist_typed dbg h x Hh Ix) as Ty. unfold s_type in Ty. rewrite Tx in Ty.
        destruct (inside_range h XVote TVote vs x Hh Rv Ix Ins Ty) as (a & Ia & Ea). congruence.
      + intros Iv. destruct (listed_vote h vs v Ho Hh Rv Iv) as (x & a & b & E & Tx & _ & V & _). exists x.
        split; [rewrite E; apply in_or_app; right; left; reflexivity|]. split; [exact Tx|apply (vo_election _ _ _ _ _ V)].
  Qed.
  Lemma votes_range h : history dbg h -> exists vs, range_is (stored h) e TVote XVote vs.
  Proof. intros Hh. destruct (votes_total dbg h _ Hh (stored_holds h) e) as (vs & _ & Rg). eauto. Qed.
  Lemma of_contest_one c v : NoDup (map ev_contest (vt_votes v)) ->
    filter (fun ev => u_eqb (ev_contest ev) c) (vt_votes v) = []
    \/ exists ev, filter (fun ev => u_eqb (ev_contest ev) c) (vt_votes v) = [ev] /\ In ev (vt_votes v) /\ ev_contest ev = c.
  Proof.
    induction (vt_votes v) as [|ev l IH]; intros Nd; [left; reflexivity|]. cbn [map] in Nd. inversion Nd as [|? ? N1 N2]; subst. specialize (IH N2).
    cbn [filter]. destruct (u_eqb (ev_contest ev) c) eqn:B.
    - apply u_eqb_eq in B. right. exists ev. split; [|split; [left; reflexivity|exact B]]. f_equal. destruct IH as [IH|(ev' & _ & I' & E')]; [exact IH|].
      exfalso. apply N1. rewrite B, <- E'. apply in_map, I'.
    - destruct IH as [IH|(ev' & IH & I' & E')]; [left; exact IH|]. right. exists ev'. split; [exact IH|]. split; [right; exact I'|exact E'].
  Qed.
  Lemma rows_ballots c vs : rows_of c vs = map ev_selections (flat_map (fun v => filter (fun ev => u_eqb (ev_contest ev) c) (vt_votes v)) vs).
  Proof.
    induction vs as [|v vs IH]; [reflexivity|]. cbn [rows_of flat_map]. rewrite map_app, IH. f_equal.
    induction (vt_votes v) as [|ev l IHl]; [reflexivity|]. cbn [cast_rows filter]. unfold u_eqb at 1. destruct (N.eqb (uv (ev_contest ev)) (uv c)); [cbn [map]; rewrite IHl; reflexivity|exact IHl].
  Qed.
  Lemma decs_keys h c : history dbg h -> honest h -> NoDup (map (fun d => (dc_upstream d, dc_index d)) (decryptions_of el h c)).
  Proof.
    intros Hh Ho. apply (NoDup_map_inv (fun k => decryption_build_id e (fst k) c (snd k))). rewrite map_map. cbn [fst snd].
    rewrite (map_ext_in _ dc_id); [apply decs_nodup, Hh|]. intros d Id. apply decs_of_in in Id as (x & Ix & Tx & Ee & Ec).
    assert (Ins : inside x) by (apply (named_inside h x Hh Ix); rewrite Tx; exact Ee).
    destruct (inside_decryption h x d Ho Hh Ix Ins Tx) as (_ & D2 & _). rewrite D2, Ec. reflexivity.
  Qed.
  Lemma dec_row h c d : history dbg h -> honest h -> In d (decryptions_of el h c) ->
    exists row, named h (dc_upstream d) c (dc_index d) row /\ forall sels, shows sels row -> dc_vote d = sels.
  Proof.
    intros Hh Ho Id. apply decs_of_in in Id as (x & Ix & Tx & Ee & Ec).
    assert (Ins : inside x) by (apply (named_inside h x Hh Ix); rewrite Tx; exact Ee).
    destruct (inside_decryption h x d Ho Hh Ix Ins Tx) as (_ & _ & row & Ro & Iu & Sh). exists row. rewrite Ec in Ro. split; [split; assumption|exact Sh].
  Qed.
  Lemma shown_cast evs cast : Forall2 (encrypted eg (ts_key S A)) evs cast -> Forall2 shows cast (map ev_selections evs).
  Proof. intros F. induction F as [|ev sels evs cast H _ IH]; [constructor|]. cbn [map]. constructor; [apply encrypted_shows, H|exact IH]. Qed.

  (** without a mixnet *)
  Theorem published_plain h Q c cast : honest h -> ended el h -> quorum dbg el T Q h -> el_mix_config el = None ->
    Forall2 (encrypted eg (ts_key S A)) (ballots el h c) cast -> Permutation (map dc_vote (decryptions_of el h c)) cast.
  Proof.
    intros Ho Ed Qu Mc F. pose proof (honest_history h Ho) as Hh. destruct (votes_range h Hh) as (vs & Rv). pose proof (votes_perm h vs Ho Hh Rv) as Pv.
    set (D := decryptions_of el h c). set (key := fun d => (dc_upstream d, dc_index d)).
    set (keys := fun v => map (fun _ : EncryptedVote => (vt_id v, u_of 2 0)) (filter (fun ev => u_eqb (ev_contest ev) c) (vt_votes v))).
    assert (Once : forall v, In v (votes_of el h) -> NoDup (map ev_contest (vt_votes v))).
    { intros v Iv. apply (Permutation_in _ Pv) in Iv. destruct (listed_vote h vs v Ho Hh Rv Iv) as (x & a & b & _ & _ & _ & V & _). apply (vo_once _ _ _ _ _ V). }
    assert (Rows : forall v ev, In v (votes_of el h) -> In ev (vt_votes v) -> named h (vt_id v) (ev_contest ev) (u_of 2 0) (ev_selections ev)).
    { intros v ev Iv Ie. apply (Permutation_in _ Pv) in Iv. apply (vote_row_at h vs v ev Ho Hh Mc Rv Iv Ie). }
    apply (perm_by_key D key dc_vote (flat_map keys (votes_of el h)) cast).
    - apply decs_keys; assumption.
    - apply (NoDup_map_inv fst). pose proof (votes_nodup h Hh) as Nv. revert Once Nv. generalize (votes_of el h) as l. clear -T.
      intros l On Nv. assert (Inc : forall l i, In i (map fst (flat_map keys l)) -> In i (map vt_id l)).
      { induction l0 as [|v l0 IH]; intros i I; [destruct I|]. cbn [flat_map] in I. rewrite map_app in I. apply in_app_or in I as [I|I]; [|right; apply IH, I].
        left. unfold keys in I. rewrite map_map in I. apply in_map_iff in I as (? & <- & _). reflexivity. }
      induction l as [|v l IH]; [constructor|]. cbn [map] in Nv. inversion Nv as [|? ? N1 N2]; subst.
      assert (Tl : NoDup (map fst (flat_map keys l))) by (apply IH; [intros w Iw; apply On; right; exact Iw|exact N2]).
      cbn [flat_map]. rewrite map_app. unfold keys at 1. destruct (of_contest_one c v (On v (or_introl eq_refl))) as [->|(ev & -> & _)]; [exact Tl|].
      cbn [map app fst]. constructor; [|exact Tl]. intros I. apply N1, Inc, I.
    - intros k Ik. apply in_flat_map in Ik as (v & Iv & Ik). apply in_map_iff in Ik as (ev & <- & Ie). apply filter_In in Ie as [Ie Be]. apply u_eqb_eq in Be.
      assert (Iv' : In v vs) by (apply (Permutation_in _ Pv), Iv).
      destruct (listed_vote h vs v Ho Hh Rv Iv') as (_ & _ & _ & _ & _ & _ & _ & Enc & _). destruct (Enc ev Ie) as (sels & Es).
      destruct (decrypt_slot h Q (vt_id v) (ev_contest ev) (u_of 2 0) (ev_selections ev) sels Ho Hh Qu (Rows v ev Iv Ie)
                  (votes_parts h Q vs v ev Ho Hh Ed Qu Mc Rv Iv' Ie) (encrypted_shows _ _ Es)) as (x & d & Ix & Tx & X1 & X2 & X3 & X4 & _).
      apply in_map_iff. exists d. split; [unfold key; congruence|]. apply decs_of_in. exists x. rewrite Be in X3. auto.
    - intros d Id. destruct (dec_row h c d Hh Ho Id) as (row & [Ro Iu] & _). unfold key. apply in_flat_map.
      destruct Ro as [(Q1 & _ & Q0 & v & ev & Q2 & Q3 & _)|(_ & Mc' & _)]; [|contradiction].
      apply (hist_at_id dbg _ _ _ Hh) in Q2. destruct Q2 as (x & Ix & Ex & Tx). assert (Ins : inside x) by (unfold SpecRun.inside; rewrite Ex; exact Iu).
      destruct (inside_vote h x v Ho Hh Ix Ins Tx) as (a & b & Ea & V & _). exists v. split; [apply votes_of_in; exists x; split; [exact Ix|split; [exact Tx|apply (vo_election _ _ _ _ _ V)]]|].
      apply in_map_iff. exists ev. assert (Q4 : In ev (vt_votes v) /\ ev_contest ev = c) by (destruct Q3 as (pre & post & -> & Ec & _); split; [apply in_or_app; right; left; reflexivity|exact Ec]). destruct Q4 as [Ie Ec]. split; [|apply filter_In; split; [exact Ie|apply u_eqb_eq, Ec]].
      f_equal; [unfold s_id in Ex; rewrite Tx in Ex; exact Ex|]. apply u_eqb_eq. unfold u_eqb. rewrite Q0. reflexivity.
    - unfold ballots in F. assert (Rows' : forall l cast, incl l (votes_of el h) ->
          Forall2 (encrypted eg (ts_key S A)) (flat_map (fun v => filter (fun ev => u_eqb (ev_contest ev) c) (vt_votes v)) l) cast ->
          Forall2 (fun k y => forall d, In d D -> key d = k -> dc_vote d = y) (flat_map keys l) cast).
      { induction l as [|v l IH]; intros cs Inc Fc; [inversion Fc; constructor|]. cbn [flat_map] in Fc |- *.
        apply Forall2_app_inv_l in Fc as (c1 & c2 & F1 & F2 & ->). apply Forall2_app; [|apply IH; [intros z Iz; apply Inc; right; exact Iz|exact F2]].
        assert (Fi : forall ev, In ev (filter (fun ev => u_eqb (ev_contest ev) c) (vt_votes v)) -> In ev (vt_votes v) /\ ev_contest ev = c).
        { intros ev I. apply filter_In in I as [I B]. apply u_eqb_eq in B. auto. }
        unfold keys. revert c1 F1 Fi. induction (filter (fun ev => u_eqb (ev_contest ev) c) (vt_votes v)) as [|ev evs IHe]; intros c1 F1 Fi; inversion F1 as [|? sels ? c1' H1 F1']; subst; [constructor|].
        cbn [map]. constructor; [|apply IHe; [exact F1'|intros z Iz; apply Fi; right; exact Iz]].
        intros d Id Ek. destruct (dec_row h c d Hh Ho Id) as (row & Na & Sh). apply Sh. unfold key in Ek. injection Ek as E1 E2.
        destruct (Fi ev (or_introl eq_refl)) as [Ie Ec]. pose proof (Rows v ev (Inc v (or_introl eq_refl)) Ie) as Na'. rewrite <- E1, <- E2, Ec in Na'.
        destruct (slot_same h _ _ _ _ _ _ _ _ Ho Hh Na Na' eq_refl) as (-> & _). apply encrypted_shows, H1. }
      apply Rows'; [apply incl_refl|exact F].
  Qed.

  (** with a mixnet *)
  Lemma mix_there h Q vs c : honest h -> history dbg h -> ended el h -> quorum dbg el T Q h -> el_mix_config el <> None ->
    range_is (stored h) e TVote XVote vs -> In c (map fst (contest_votes vs)) ->
    exists x m, In x h /\ inside x /\ s_tx x = XMix m /\ mx_contest m = c /\ mix_of h m.
  Proof.
    intros Ho Hh Ed Qu Mc Rv Ic. destruct (qu_mixer _ _ _ _ _ Qu Mc) as (q & Iq & I1). pose proof (qu_trustees _ _ _ _ _ Qu q Iq) as It.
    destruct (end_found h Ho Hh Ed) as (x & ve & Ix & Ins & Tx & Ee). pose proof (qu_answers _ _ _ _ _ Qu x q Ix Ins Iq) as An. rewrite Tx in An.
    destruct An as (h1 & h2 & r & l & E & Ix1 & G & Oc). pose proof Ho as Ho0. pose proof Hh as Hh0. rewrite E in Ho, Hh, Rv.
    pose proof (honest_prefix h2 h1 x Ho Ix1 Ins) as Ho1. pose proof (hist_prefix dbg _ _ Hh) as Hh1.
    destruct (inside_end h1 x ve Ho1 Hh1 Ix1 Ins Tx) as (_ & Ed1 & _). apply (votes_frozen h1 h2 vs Hh Ed1) in Rv.
    unfold generate_transactions in G. rewrite Tx in G. unfold process_voting_end in G. rewrite Ee, (t_election_ok h1 Ho1 Hh1) in G. cbn [bind] in G.
    rewrite (T_full q It) in G. destruct (el_mix_config el) as [mcf|] eqn:Emc; [|congruence]. rewrite I1 in G. cbn [Byte.eqb] in G.
    change (Byte.eqb x01 x01) with true in G. cbv iota in G.
    apply bind_ok in G as (k & Ke & G). apply bind_ok in G as (vs' & Vs & G). apply (t_multiple_iff _ _ (stored_holds h1) _ _ _ _ _ as_vote_iff) in Vs.
    assert (vs' = vs).
    { unfold range_is in Rv, Vs. rewrite Rv in Vs. clear -Vs. revert vs' Vs. induction vs as [|a vs IH]; intros [|b vs'] E; try discriminate E; [reflexivity|].
      cbn [map] in E. injection E as -> E. f_equal. apply IH, E. }
    subst vs'. destruct (first_mixes_all _ _ _ _ _ _ _ _ G c Ic) as (y & m0 & Iy & Ty & Ec).
    assert (Ans : ans h1 y).
    { exists (snd q), r, x. split; [apply node_of, It|]. split; [exact Ix1|]. split; [exact Ins|]. apply (gen_inv dbg (snd q) r _ x l y _ (stored_holds h1)); [|exact Iy].
      unfold generate_transactions. rewrite Tx. unfold process_voting_end. rewrite Ee, (t_election_ok h1 Ho1 Hh1). cbn [bind]. rewrite (T_full q It), Emc, I1.
      change (Byte.eqb x01 x01) with true. cbv iota. rewrite Ke. cbn [bind]. apply (t_multiple_iff _ _ (stored_holds h1) _ _ _ _ _ as_vote_iff) in Vs. rewrite Vs. exact G. }
    pose proof (Oc y Iy) as Oy. destruct (ans_mix h1 y m0 Ho1 Hh1 Ans Ty) as (_ & _ & _ & p0 & vs0 & rn & mp & _ & Ei0 & _ & _ & _ & Em0).
    assert (Eid : s_id y = mix_build_id e c (u_of 4 0) x00 x01) by (unfold s_id; rewrite Ty, Em0, Ec; cbn [tx_id mix_tx mx_id]; rewrite Ei0; reflexivity).
    rewrite Eid in Oy. destruct (found h _ TMix Hh0 Oy eq_refl eq_refl) as (z & Iz & Insz & Ez & Tz).
    destruct (s_tx z) as [t|t|t|t|t|t|t|m|t|t] eqn:Txz; try discriminate Tz. exists z, m. split; [exact Iz|]. split; [exact Insz|]. split; [exact Txz|].
    pose proof (inside_mix h z m Ho0 Hh0 Iz Insz Txz) as Mo. split; [|exact Mo].
    destruct Mo as (_ & _ & _ & p1 & vs1 & rn1 & mp1 & _ & Ei1 & _ & _ & _ & Em1). unfold s_id in Ez. rewrite Txz in Ez. cbn [tx_id] in Ez.
    rewrite Em1 in Ez. cbn [mix_tx mx_id] in Ez. unfold mix_build_id in Ez. rewrite !id_new_some in Ez. apply (f_equal id_unique) in Ez. cbn [id_unique] in Ez.
    unfold mix_unique in Ez. apply (arr_app_inj (n:=4)) in Ez as [Ez _]. apply to_be_inj in Ez. exact Ez.
  Qed.
  Lemma mix_parts h Q x m j row : honest h -> history dbg h -> quorum dbg el T Q h -> In x h -> inside x -> s_tx x = XMix m ->
    nth_error (mx_out m) j = Some row -> parts_there h Q (mx_id m) (mx_contest m) (u_of 2 (N.of_nat j)).
  Proof.
    intros Ho Hh Qu Ix Ins Tx J q Iq. pose proof (qu_trustees _ _ _ _ _ Qu q Iq) as It.
    pose proof (qu_answers _ _ _ _ _ Qu x q Ix Ins Iq) as An. rewrite Tx in An.
    destruct An as (h1 & h2 & r & l & E & Ix1 & G & Oc). rewrite E in Ho, Hh.
    pose proof (honest_prefix h2 h1 x Ho Ix1 Ins) as Ho1. pose proof (hist_prefix dbg _ _ Hh) as Hh1.
    destruct (inside_mix h1 x m Ho1 Hh1 Ix1 Ins Tx) as (Mc & _ & _ & p & vs & rn & mp & _ & _ & _ & _ & _ & Em).
    unfold generate_transactions in G. rewrite Tx in G. unfold process_mix in G.
    assert (Ee : mx_election m = e) by (rewrite Em; reflexivity). rewrite Ee, (t_election_ok h1 Ho1 Hh1) in G. cbn [bind] in G. rewrite (T_full q It) in G.
    destruct (su_mix _ _ _ SU) as [X|X]; [contradiction|]. destruct (el_mix_config el) as [mcf|]; [|congruence].
    assert (Ei : mx_index m = x00) by (rewrite Em; reflexivity).
    assert (Nx : @u8_add TaskError dbg (mx_index m) x01 = Ok x01) by (rewrite Ei; destruct dbg; reflexivity).
    rewrite Nx in G. cbn [bind] in G. rewrite X in G. change (Byte.eqb x01 x01) with true in G. cbv iota in G.
    destruct (produced h1 q r (mx_contest m) (Some m) l G j row J) as (y & Iy & Ey). rewrite <- Ey. apply Oc, Iy.
  Qed.
  Hypothesis Re : el_mix_config el <> None -> reencrypting S.
  Lemma ballots_perm h c vs : honest h -> history dbg h -> range_is (stored h) e TVote XVote vs ->
    Permutation (map ev_selections (ballots el h c)) (rows_of c vs).
  Proof.
    intros Ho Hh Rv. rewrite rows_ballots. apply Permutation_map. unfold ballots. apply Permutation_flat_map, (votes_perm h vs Ho Hh Rv).
  Qed.
  Theorem published_mixed h Q c cast : honest h -> ended el h -> quorum dbg el T Q h -> el_mix_config el <> None ->
    Forall2 (encrypted eg (ts_key S A)) (ballots el h c) cast -> Permutation (map dc_vote (decryptions_of el h c)) cast.
  Proof.
    intros Ho Ed Qu Mc F. pose proof (honest_history h Ho) as Hh. destruct (votes_range h Hh) as (vs & Rv).
    pose proof (shown_cast _ _ F) as Sc0. destruct (forall2_perm _ _ _ Sc0 _ (ballots_perm h c vs Ho Hh Rv)) as (cast1 & P1 & F1).
    (* where the recorded decryptions of the contest come from *)
    assert (Src : forall d, In d (decryptions_of el h c) -> exists x m row, In x h /\ inside x /\ s_tx x = XMix m /\ mx_contest m = c /\ dc_upstream d = mx_id m
              /\ nth_error (mx_out m) (N.to_nat (uv (dc_index d))) = Some row /\ mix_of h m /\ forall sels, shows sels row -> dc_vote d = sels).
    { intros d Id. destruct (dec_row h c d Hh Ho Id) as (row & [[(_ & Mc' & _)|(Q1 & _ & m & Q2 & Q3 & _ & Q4)] Iu] & Sh); [contradiction|].
      apply (hist_at_id dbg _ _ _ Hh) in Q2. destruct Q2 as (x & Ix & Ex & Tx). assert (Ins : inside x) by (unfold SpecRun.inside; rewrite Ex; exact Iu).
      exists x, m, row. split; [exact Ix|]. split; [exact Ins|]. split; [exact Tx|]. split; [exact Q3|]. split; [rewrite <- Ex; unfold s_id; rewrite Tx; reflexivity|].
      split; [exact Q4|]. split; [apply (inside_mix h x m Ho Hh Ix Ins Tx)|exact Sh]. }
    assert (Dec : In c (map fst (contest_votes vs)) \/ rows_of c vs = []).
    { rewrite contest_votes_keys, rows_ballots. clear. induction vs as [|v vs IH]; [right; reflexivity|]. cbn [flat_map].
      destruct (filter (fun ev => u_eqb (ev_contest ev) c) (vt_votes v)) as [|ev l] eqn:Fe.
      - destruct IH as [(v' & ev & I1 & I2 & I3)|IH]; [left; exists v', ev; split; [right; exact I1|auto]|right; exact IH].
      - left. assert (I : In ev (filter (fun ev => u_eqb (ev_contest ev) c) (vt_votes v))) by (rewrite Fe; left; reflexivity).
        apply filter_In in I as [I1 I2]. apply u_eqb_eq in I2. exists v, ev. split; [left; reflexivity|auto]. }
    destruct Dec as [Ic|Empty].
    2:{ rewrite Empty in F1. inversion F1; subst. apply Permutation_sym, Permutation_nil in P1. subst cast.
        destruct (decryptions_of el h c) as [|d D] eqn:Ed'; [apply Permutation_refl|]. exfalso.
        destruct (Src d) as (x & m & row & Ix & Ins & Tx & Ec & _ & J & Mo & _); [left; reflexivity|].
        destruct (mix_made h m Ho Hh Mo) as (vs' & Fa). assert (vs' = vs).
        { pose proof (mf_range _ _ _ Fa) as R'. unfold range_is in R', Rv. rewrite R' in Rv. clear -Rv. revert vs Rv. induction vs' as [|a vs' IH]; intros [|b vs] E; try discriminate E; [reflexivity|].
          cbn [map] in E. injection E as -> E. f_equal. apply IH, E. }
        subst vs'. destruct vs as [|v vs]; [apply mf_length in Fa; cbn in Fa; destruct (mx_out m); [destruct (N.to_nat (uv (dc_index d))); discriminate J|discriminate Fa]|].
        pose proof (mf_once _ _ _ Fa v (or_introl eq_refl)) as On. rewrite Ec in On. destruct (cast_once c v On) as (ev & _ & _ & Er). cbn [rows_of] in Empty. rewrite Er in Empty. discriminate Empty. }
    destruct (mix_there h Q vs c Ho Hh Ed Qu Mc Rv Ic) as (x & m & Ix & Ins & Tx & Ec & Mo).
    destruct (mix_made h m Ho Hh Mo) as (vs' & Fa). assert (vs' = vs).
    { pose proof (mf_range _ _ _ Fa) as R'. unfold range_is in R', Rv. rewrite R' in Rv. clear -Rv. revert vs Rv. induction vs' as [|a vs' IH]; intros [|b vs] E; try discriminate E; [reflexivity|].
      cbn [map] in E. injection E as -> E. f_equal. apply IH, E. }
    subst vs'. pose proof (mf_verify _ _ _ Fa) as Ve. rewrite Ec in Ve.
    destruct (Re Mc _ _ _ _ _ _ Ve) as (ins' & Pi & Fi). destruct (forall2_perm _ _ _ F1 _ Pi) as (cast2 & P2 & F2).
    assert (F3 : Forall2 shows cast2 (mx_out m)).
    { eapply forall2_trans; [|exact F2|exact Fi]. intros sels a b [W Sa] Ab. split; [exact W|].
      eapply forall2_trans; [|exact Sa|exact Ab]. intros s ct ct' H1 H2. apply H2, H1. }
    eapply Permutation_trans; [|apply Permutation_sym; eapply Permutation_trans; [exact P1|exact P2]].
    assert (Bo := mf_bound _ _ _ Fa).
    assert (At : at_id h (mx_id m) (XMix m)) by (exists x; split; [exact Ix|]; unfold s_id; rewrite Tx; auto).
    apply (perm_by_key (decryptions_of el h c) (fun d => (dc_upstream d, dc_index d)) dc_vote (map (fun j => (mx_id m, u_of 2 (N.of_nat j))) (seq 0 (length (mx_out m)))) cast2).
    - apply decs_keys; assumption.
    - apply (NoDup_map_inv (fun k => N.to_nat (uv (snd k)))). rewrite map_map. cbn [snd].
      rewrite (map_ext_in _ (fun j => j)); [rewrite map_id; apply seq_NoDup|]. intros j Ij. apply in_seq in Ij. rewrite uv16 by lia. apply Nat2N.id.
    - intros k Ik. apply in_map_iff in Ik as (j & <- & Ij). apply in_seq in Ij. destruct (nth_error (mx_out m) j) as [row|] eqn:J; [|apply nth_error_None in J; lia].
      destruct (forall2_nth_ex _ _ _ (Forall2_flip _ _ _ F3) j row J) as (sels & _ & Sh).
      destruct (mix_row_at h m j row Ho Hh Mo At J) as (Ro & Iu & _).
      destruct (decrypt_slot h Q (mx_id m) (mx_contest m) (u_of 2 (N.of_nat j)) row sels Ho Hh Qu (conj Ro Iu) (mix_parts h Q x m j row Ho Hh Qu Ix Ins Tx J) Sh) as (y & d & Iy & Ty & X1 & X2 & X3 & X4 & _).
      apply in_map_iff. exists d. split; [congruence|]. apply decs_of_in. exists y. split; [exact Iy|]. split; [exact Ty|]. split; [exact X1|congruence].
    - intros d Id. destruct (Src d Id) as (x' & m' & row & Ix' & Ins' & Tx' & Ec' & Eu & J & Mo' & _).
      assert (Em : m' = m).
      { assert (Ei : s_id x' = s_id x).
        { unfold s_id. rewrite Tx, Tx'. cbn [tx_id]. destruct Mo as (_ & _ & _ & p1 & vs1 & rn1 & mp1 & _ & Ei1 & _ & _ & _ & Em1).
          destruct Mo' as (_ & _ & _ & p2 & vs2 & rn2 & mp2 & _ & Ei2 & _ & _ & _ & Em2). rewrite Em1, Em2. cbn [mix_tx mx_id]. rewrite Ei1, Ei2, Ec, Ec'. reflexivity. }
        assert (x' = x) by (apply (hist_unique dbg h x' x Hh Ix' Ix Ei)). congruence. }
      subst m'. apply in_map_iff. exists (N.to_nat (uv (dc_index d))). split.
      + rewrite Eu. f_equal. apply u_eqb_eq. unfold u_eqb. apply N.eqb_eq. assert (Lj : N.to_nat (uv (dc_index d)) < length (mx_out m)) by (apply nth_error_Some; congruence).
        rewrite uv16 by lia. apply N2Nat.id.
      + apply in_seq. split; [lia|]. apply nth_error_Some. congruence.
    - assert (Main : forall outs cs n, (forall j row, nth_error outs j = Some row -> nth_error (mx_out m) (n + j) = Some row) -> Forall2 shows cs outs ->
          Forall2 (fun k y => forall d, In d (decryptions_of el h c) -> (dc_upstream d, dc_index d) = k -> dc_vote d = y) (map (fun j => (mx_id m, u_of 2 (N.of_nat j))) (seq n (length outs))) cs).
      { induction outs as [|row outs IH]; intros cs n Nt Fc; inversion Fc as [|sels row0 cs1 outs0 H1 Fc1]; [constructor|]. subst row0 outs0. cbn [length seq map]. constructor.
        - intros d Id Ek. injection Ek as E1 E2. destruct (dec_row h c d Hh Ho Id) as (row' & Na & Sh). apply Sh.
          assert (J : nth_error (mx_out m) n = Some row) by (rewrite <- (Nat.add_0_r n); apply Nt; reflexivity).
          destruct (mix_row_at h m n row Ho Hh Mo At J) as (Ro & Iu & _). rewrite <- E1, <- E2 in Ro. rewrite <- E1 in Iu.
          rewrite Ec in Ro. destruct (slot_same h _ _ _ _ _ _ _ _ Ho Hh Na (conj Ro Iu) eq_refl) as (-> & _). exact H1.
        - apply IH; [|exact Fc1]. intros j row' J. replace (Datatypes.S n + j) with (n + Datatypes.S j) by lia. apply Nt. exact J. }
      apply (Main (mx_out m) cast2 0); [intros j row J; exact J|exact F3].
  Qed.
  Lemma cast_exists h c : honest h -> exists cast, Forall2 (encrypted eg (ts_key S A)) (ballots el h c) cast.
  Proof.
    intros Ho. pose proof (honest_history h Ho) as Hh. destruct (votes_range h Hh) as (vs & Rv). pose proof (votes_perm h vs Ho Hh Rv) as Pv.
    assert (All : forall ev, In ev (ballots el h c) -> exists sels, encrypted eg (ts_key S A) ev sels).
    { intros ev I. unfold ballots in I. apply in_flat_map in I as (v & Iv & Ie). apply filter_In in Ie as [Ie _]. apply (Permutation_in _ Pv) in Iv.
      destruct (listed_vote h vs v Ho Hh Rv Iv) as (_ & _ & _ & _ & _ & _ & _ & Enc & _). apply (Enc ev Ie). }
    induction (ballots el h c) as [|ev l IH]; [exists []; constructor|]. destruct IH as (cast & Fc); [intros z Iz; apply All; right; exact Iz|].
    destruct (All ev (or_introl eq_refl)) as (sels & Es). exists (sels :: cast). constructor; assumption.
  Qed.
  Theorem published_votes h Q c : honest h -> ended el h -> quorum dbg el T Q h ->
    (exists cast, Forall2 (encrypted eg (ts_key S A)) (ballots el h c) cast)
    /\ forall cast, Forall2 (encrypted eg (ts_key S A)) (ballots el h c) cast -> Permutation (map dc_vote (decryptions_of el h c)) cast.
  Proof.
    intros Ho Ed Qu. split; [apply cast_exists, Ho|]. intros cast F.
    assert (D : el_mix_config el = None \/ el_mix_config el <> None) by (clear; destruct (el_mix_config el); [right; discriminate|left; reflexivity]).
    destruct D as [Mc|Mc]; [apply (published_plain h Q c cast Ho Ed Qu Mc F)|apply (published_mixed h Q c cast Ho Ed Qu Mc F)].
  Qed.

  (** ** honest nodes are never stopped: every transaction of the election can be answered, at any time *)
  Lemma row_shows h up c ix row : honest h -> history dbg h -> named h up c ix row -> exists sels, shows sels row.
  Proof.
    intros Ho Hh [Ro Iu]. destruct Ro as [(_ & _ & _ & v & ev & At & Fi & ->)|(_ & Mc & m & At & _ & _ & J)];
      apply (hist_at_id dbg _ _ _ Hh) in At; destruct At as (x & Ix & Ex & Tx); (assert (Ins : inside x) by (unfold SpecRun.inside; rewrite Ex; exact Iu)).
    - destruct (inside_vote h x v Ho Hh Ix Ins Tx) as (a & b & _ & _ & Enc & _).
      assert (Ie : In ev (vt_votes v)) by (destruct Fi as (pre & post & -> & _); apply in_or_app; right; left; reflexivity).
      destruct (Enc ev Ie) as (sels & Es). exists sels. apply encrypted_shows, Es.
    - destruct (mix_made h m Ho Hh (inside_mix h x m Ho Hh Ix Ins Tx)) as (vs & Fa). pose proof (mf_verify _ _ _ Fa) as Ve. set (c0 := mx_contest m) in *.
      destruct (cast_exists h c0 Ho) as (cast & Fc). pose proof (shown_cast _ _ Fc) as Sc0.
      destruct (forall2_perm _ _ _ Sc0 _ (ballots_perm h c0 vs Ho Hh (mf_range _ _ _ Fa))) as (cast1 & _ & F1).
      destruct (Re Mc _ _ _ _ _ _ Ve) as (ins' & Pi & Fi). destruct (forall2_perm _ _ _ F1 _ Pi) as (cast2 & _ & F2).
      assert (F3 : Forall2 shows cast2 (mx_out m)).
      { eapply forall2_trans; [|exact F2|exact Fi]. intros sels a b [W Sa] Ab. split; [exact W|].
        eapply forall2_trans; [|exact Sa|exact Ab]. intros s ct ct' H1 H2. apply H2, H1. }
      destruct (forall2_nth_ex _ _ _ (Forall2_flip _ _ _ F3) _ row J) as (sels & _ & Sh). eauto.
  Qed.
  Lemma produces h q r shs c om : honest h -> history dbg h -> In q T -> shs_done h shs ->
    exists l, produce_partials (snd q) r (ms_store (ms_from h)) el (fst q) c om = Ok l.
  Proof.
    intros Ho Hh Iq D. unfold produce_partials.
    destruct (shares_total dbg h _ Hh (stored_holds h) e) as (shs' & L & _). destruct (list_shares h shs' Ho Hh L) as [_ U]. rewrite (U shs D) in L. rewrite L. cbn [bind].
    destruct (commitments_listed h Hh) as (cs & Lc). destruct (list_commitments h cs Ho Hh Lc) as [_ Uc]. rewrite (Uc (shs_coms h shs Ho Hh D)) in Lc. rewrite Lc. cbn [bind].
    destruct cs_keys as [-> ->]. destruct (@shares_found TaskError shs q (done_of _ _ D) Iq) as (l & Sl). rewrite Sl. cbn [bind].
    destruct (party_ok S DH Op Sc T (el_threshold el) e (su_ceremony _ _ _ SU) (published shs) (published_honest shs (done_of _ _ D)) q l Iq (shares_sent shs q l (done_of _ _ D) Sl)) as (pa & P & _).
    destruct om as [m|].
    - apply (partials_total _ r _ _ _ _ _ _ P).
    - destruct (votes_total dbg h _ Hh (stored_holds h) e) as (vs & Lv & _). rewrite Lv. cbn [bind]. apply (partials_total _ r _ _ _ _ _ _ P).
  Qed.
  Theorem never_stopped h x sk r : honest h -> (el_mix_config el <> None -> shuffles) -> In x h -> inside x -> node sk ->
    exists l, generate_transactions dbg sk r (ms_store (ms_from h)) x = Ok l.
  Proof.
    intros Ho Shf Ix Ins Nd. pose proof (honest_history h Ho) as Hh. pose proof (t_election_ok h Ho Hh) as Te.
    unfold generate_transactions. destruct (s_tx x) as [t|t|t|t|t|t|t|t|t|t] eqn:Tx; try (exists []; reflexivity).
    - pose proof (inside_election h x t Ho Hh Ix Ins Tx) as ->. unfold process_election.
      destruct (trustee_from_election el (node_key sk)) as [tr|] eqn:Tr; [|exists []; reflexivity]. pose proof (node_T sk tr Nd Tr) as Ip.
      destruct (one_makes (tr, sk) (XCommitment (com_tx (tr, sk))) Ip eq_refl) as (y & Y & _). exists [y]. exact Y.
    - destruct (inside_commitment h x t Ho Hh Ix Ins Tx) as (p & Ip & ->). unfold process_keygen_commitment. cbn [com_tx kc_election]. rewrite Te. cbn [bind].
      destruct (trustee_from_election el (node_key sk)) as [tr|] eqn:Tr; [|exists []; reflexivity]. pose proof (node_T sk tr Nd Tr) as It.
      destruct (commitments_listed h Hh) as (cs & L). destruct (list_commitments h cs Ho Hh L) as [U1 _]. rewrite L. cbn [bind].
      destruct (Nat.eqb_spec (length cs) (length (el_trustees el))) as [Eq|]; [|exists []; reflexivity]. destruct (U1 Eq) as [_ D].
      destruct (makes_share h (tr, sk) (com_tx p) r Ho Hh It eq_refl D) as (y & m & Y & _). unfold process_keygen_commitment in Y. cbn [com_tx kc_election snd fst] in Y. rewrite Te in Y. cbn [bind] in Y.
      rewrite Tr in Y. rewrite L in Y. cbn [bind] in Y. rewrite Eq, Nat.eqb_refl in Y. eauto.
    - destruct (inside_share h x t Ho Hh Ix Ins Tx) as [(p & Ip & Sh) _]. assert (Et : ks_election t = e) by (destruct Sh as (? & ? & _ & ->); reflexivity).
      unfold process_keygen_share. rewrite Et, Te. cbn [bind].
      destruct (trustee_from_election el (node_key sk)) as [tr|] eqn:Tr; [|exists []; reflexivity]. pose proof (node_T sk tr Nd Tr) as It.
      destruct (shares_total dbg h _ Hh (stored_holds h) e) as (shs & L & _). destruct (list_shares h shs Ho Hh L) as [U1 _]. rewrite L. cbn [bind].
      destruct (Nat.eqb_spec (length shs) (length (el_trustees el))) as [Eq|]; [|exists []; reflexivity]. cbn [negb]. specialize (U1 Eq).
      destruct (makes_pubkey h (tr, sk) t shs Ho Hh It Et U1) as (y & pf & Y & _). unfold process_keygen_share in Y. rewrite Et, Te in Y. cbn [bind fst snd] in Y.
      rewrite Tr in Y. rewrite L in Y. cbn [bind] in Y. rewrite Eq, Nat.eqb_refl in Y. cbn [negb] in Y. eauto.
    - destruct (inside_pubkey h x t Ho Hh Ix Ins Tx) as (p & shs & Ip & _ & l & pf & _ & _ & ->). unfold process_keygen_public_key. cbn [pubkey_tx kp_election]. rewrite Te. cbn [bind].
      destruct (pk_eqb (el_authority el) (node_key sk)) eqn:B; [|exists []; reflexivity]. apply pk_eqb_eq in B.
      destruct (pubkeys_total dbg h _ Hh (stored_holds h) e) as (pks & L & _). rewrite L. cbn [bind].
      destruct (Nat.eqb (length (el_trustees el)) (length pks)); [|exists []; reflexivity].
      apply one_total. cbn [tx_public]. intros k E. injection E as <-. exact B.
    - destruct (inside_end h x t Ho Hh Ix Ins Tx) as (Ee & Ed & Ke & pks & shs & D & _). unfold process_voting_end. rewrite Ee, Te. cbn [bind].
      destruct (trustee_from_election el (node_key sk)) as [tr|] eqn:Tr; [|exists []; reflexivity]. pose proof (node_T sk tr Nd Tr) as It.
      assert (Shf' : el_mix_config el <> None -> shuffles) by exact Shf.
      destruct (el_mix_config el) as [mc|].
      + destruct (Byte.eqb (tr_index tr) x01); [|exists []; reflexivity].
        apply (hist_at_id dbg _ _ _ Hh) in Ke. apply (t_enckey_iff _ _ (stored_holds h)) in Ke. rewrite Ke. cbn [bind].
        destruct (votes_total dbg h _ Hh (stored_holds h) e) as (vs & Lv & _). rewrite Lv. cbn [bind].
        apply first_mixes_total; [apply (T_public (tr, sk) It)|apply Shf'; discriminate].
      + destruct (el_contests el) as [|c0 cs]; [exists []; reflexivity|]. apply (produces h (tr, sk) r shs _ None Ho Hh It D).
    - pose proof (inside_mix h x t Ho Hh Ix Ins Tx) as (Mc & Ed & Ke & p & vs & rn & mp & _ & _ & _ & _ & _ & Em).
      unfold process_mix. assert (Ee : mx_election t = e) by (rewrite Em; reflexivity). rewrite Ee, Te. cbn [bind].
      destruct (trustee_from_election el (node_key sk)) as [tr|] eqn:Tr; [|exists []; reflexivity]. pose proof (node_T sk tr Nd Tr) as It.
      destruct (su_mix _ _ _ SU) as [X|X]; [contradiction|]. destruct (at_enckey h _ Ho Hh Ke) as (_ & pks & shs & D & _).
      destruct (el_mix_config el) as [mc|]; [|exists []; reflexivity].
      assert (Ei : mx_index t = x00) by (rewrite Em; reflexivity).
      assert (Nx : @u8_add TaskError dbg (mx_index t) x01 = Ok x01) by (rewrite Ei; destruct dbg; reflexivity).
      rewrite Nx. cbn [bind]. rewrite X. change (Byte.eqb x01 x01) with true. cbv iota. apply (produces h (tr, sk) r shs _ (Some t) Ho Hh It D).
    - destruct (inside_partial h x t Ho Hh Ix Ins Tx) as (Ed & (pks & Dp) & q & row & Iq & Pp).
      assert (Ee : pd_election t = e) by (destruct Pp as (shs & l & ds & _ & _ & _ & _ & _ & ->); reflexivity).
      destruct (slot_parts h q row t Ho Hh Iq Pp) as (parts & Ep & Of & Ndp & _).
      destruct (row_shows h _ _ _ row Ho Hh (part_named _ _ _ _ Pp)) as (sels & Sh).
      destruct (trustee_from_election el (node_key sk)) as [tr|] eqn:Tr.
      + pose proof (node_T sk tr Nd Tr) as It. pose proof (f_equal (@length _) Ep) as Ln. rewrite !map_length in Ln.
        destruct (Nat.leb_spec (N.to_nat (u8v (el_threshold el))) (length (slot_range h t))) as [Le|Gt].
        * destruct (makes_decryption h (tr, sk) q row t parts pks sels Ho Hh It Iq Pp Dp Ep Of Ndp ltac:(lia) Sh) as (y & d & Y & _). exists [y]. exact Y.
        * exists []. unfold process_partial_decryption. rewrite Ee, Te. cbn [bind]. rewrite Tr. rewrite (h_range _ _ (stored_holds h)) by apply slot_start_stop.
          fold (slot_range h t). cbn [lift map_err bind]. assert (B : Nat.leb (N.to_nat (u8v (el_threshold el))) (length (slot_range h t)) = false) by (apply Nat.leb_gt; exact Gt).
          rewrite B. reflexivity.
      + exists []. unfold process_partial_decryption. rewrite Ee, Te. cbn [bind]. rewrite Tr. reflexivity.
  Qed.

  (** ** an election is never stuck: everything can still be answered *)
  Definition rank (x : STx) : nat :=
    match s_tx x with
    | XElection _ => 0 | XCommitment _ => 1 | XShare _ => 2 | XPublicKey _ => 3 | XVotingEnd _ => 4 | XMix _ => 5 | XPartial _ => 6
    | XEncryptionKey _ | XVote _ | XDecryption _ => 7
    end.
  Lemma rank_answer h sk r x l y : honest h -> history dbg h -> node sk -> In x h -> inside x ->
    generate_transactions dbg sk r (ms_store (ms_from h)) x = Ok l -> In y l -> rank x < rank y.
  Proof.
    intros Ho Hh Nd Ix Ins G Iy. pose proof (gen_inv dbg sk r _ x l y _ (stored_holds h) G Iy) as An. unfold answer in An. unfold rank.
    destruct (s_tx y) as [t|t|t|t|t|t|t|t|t|t] eqn:Ty; try contradiction.
    - destruct An as (? & ? & -> & _). lia.
    - destruct An as (? & ? & ? & ? & ? & -> & _). lia.
    - destruct An as (? & ? & ? & ? & ? & ? & ? & -> & _). lia.
    - destruct An as (? & ? & ? & -> & _). lia.
    - destruct An as [(? & ? & ? & ? & ? & ? & ? & ? & ? & -> & _)|(m0 & el' & next & Tx & El & Nx & Th)]; [lia|]. exfalso.
      destruct (inside_mix h x m0 Ho Hh Ix Ins Tx) as (Mc & _ & _ & p & vs & rn & mp & _ & _ & _ & _ & _ & Em). rewrite Em in El, Nx. cbn [mix_tx mx_election mx_index] in El, Nx.
      assert (el' = el) by (apply (find_election h e el' Ho Hh eq_refl El)). subst el'.
      destruct (su_mix _ _ _ SU) as [X|X]; [contradiction|]. rewrite X in Th. apply Th. destruct dbg; vm_compute in Nx; congruence.
    - destruct An as (el' & ? & ? & ? & ? & ? & ? & ? & ? & ? & ? & _ & _ & _ & _ & _ & _ & _ & [(? & ? & ? & ? & -> & _)|(? & ? & -> & _)]); lia.
    - destruct An as (? & ? & ? & ? & ? & ? & ? & -> & _). lia.
  Qed.
  Lemma answers_mono h h' sk x : answers dbg h sk x -> answers dbg (h ++ h') sk x.
  Proof.
    intros (h1 & h2 & r & l & E & I & G & O). exists h1, (h2 ++ h'), r, l. split; [rewrite E, app_assoc; reflexivity|]. split; [exact I|]. split; [exact G|].
    intros y Iy. apply occupied_mono, O, Iy.
  Qed.
  Lemma answer_one (r : Rnd) h x sk : honest h -> (el_mix_config el <> None -> shuffles) -> In x h -> inside x -> node sk ->
    exists h', honest (h ++ h') /\ answers dbg (h ++ h') sk x /\ forall y, In y h' -> rank x < rank y.
  Proof.
    intros Ho Shf Ix Ins Nd. destruct (never_stopped h x sk r Ho Shf Ix Ins Nd) as (l & G).
    assert (Rk : forall y, In y l -> rank x < rank y) by (intros y; apply (rank_answer h sk r x l y Ho (honest_history h Ho) Nd Ix Ins G)).
    assert (Main : forall l0, incl l0 l -> exists h', honest (h ++ h') /\ (forall y, In y l0 -> occupied (h ++ h') (s_id y)) /\ incl h' l).
    { induction l0 as [|y l0 IH]; intros Inc; [exists []; rewrite app_nil_r; split; [exact Ho|split; [intros y []|intros y []]]|].
      destruct IH as (h' & Ho' & Oc & Il); [intros z Iz; apply Inc; right; exact Iz|].
      destruct (occupied_dec (h ++ h') (s_id y)) as [O|O].
      - exists h'. split; [exact Ho'|]. split; [intros z [<-|Iz]; auto|exact Il].
      - exists (h' ++ [y]). rewrite app_assoc. split; [|split].
        + apply (ho_node _ _ _ _ _ h h' sk r x l y Ho' Nd Ix Ins G (Inc y (or_introl eq_refl))). intros w Iw Ew. apply O. exists w. auto.
        + intros z [<-|Iz]; [exists y; split; [apply in_or_app; right; left; reflexivity|reflexivity]|apply occupied_mono, Oc, Iz].
        + intros z Iz. apply in_app_or in Iz as [Iz|[<-|[]]]; [apply Il, Iz|apply Inc; left; reflexivity]. }
    destruct (Main l (incl_refl _)) as (h' & Ho' & Oc & Il). exists h'. split; [exact Ho'|]. split; [|intros y Iy; apply Rk, Il, Iy].
    exists h, h', r, l. auto.
  Qed.
  Lemma answer_pairs (r : Rnd) k : forall ps h, honest h -> (el_mix_config el <> None -> shuffles) ->
    (forall x sk, In (x, sk) ps -> In x h /\ inside x /\ node sk /\ rank x = k) ->
    exists h', honest (h ++ h') /\ (forall x sk, In (x, sk) ps -> answers dbg (h ++ h') sk x) /\ forall y, In y h' -> k < rank y.
  Proof.
    induction ps as [|[x sk] ps IH]; intros h Ho Shf All; [exists []; rewrite app_nil_r; split; [exact Ho|split; [intros x sk []|intros y []]]|].
    destruct (All x sk (or_introl eq_refl)) as (Ix & Ins & Nd & Rx). destruct (answer_one r h x sk Ho Shf Ix Ins Nd) as (h1 & Ho1 & An1 & R1).
    destruct (IH (h ++ h1) Ho1 Shf) as (h2 & Ho2 & An2 & R2).
    { intros x' sk' I. destruct (All x' sk' (or_intror I)) as (I1 & I2 & I3 & I4). split; [apply grow, I1|auto]. }
    exists (h1 ++ h2). rewrite app_assoc. split; [exact Ho2|]. split.
    - intros x' sk' [E|I]; [injection E as <- <-; apply answers_mono, An1|apply An2, I].
    - intros y Iy. apply in_app_or in Iy as [Iy|Iy]; [rewrite <- Rx; apply R1, Iy|apply R2, Iy].
  Qed.
  Definition answered_upto (ns : list ed_secret) (k : nat) (h : list STx) : Prop :=
    forall x sk, In x h -> inside x -> In sk ns -> rank x < k -> answers dbg h sk x.
  Lemma stage (r : Rnd) ns k h : honest h -> (el_mix_config el <> None -> shuffles) -> (forall sk, In sk ns -> node sk) -> answered_upto ns k h ->
    exists h', honest (h ++ h') /\ answered_upto ns (Datatypes.S k) (h ++ h').
  Proof.
    intros Ho Shf Nds Up. set (f := fun x => (arr_eqb (id_election (s_id x)) (id_election e) && Nat.eqb (rank x) k)%bool).
    assert (Fs : forall x, f x = true <-> inside x /\ rank x = k) by (intros x; unfold f; rewrite andb_true_iff, arr_eqb_eq, Nat.eqb_eq; reflexivity).
    destruct (answer_pairs r k (list_prod (filter f h) ns) h Ho Shf) as (h' & Ho' & An & Rk).
    { intros x sk I. apply in_prod_iff in I as [Ix Is]. apply filter_In in Ix as [Ix Fx]. apply Fs in Fx as [Ins Rx]. auto. }
    exists h'. split; [exact Ho'|]. intros x sk Ix Ins Is Rx. apply in_app_or in Ix as [Ix|Ix].
    - destruct (Nat.eq_dec (rank x) k) as [Eq|Ne].
      + apply An, in_prod_iff. split; [apply filter_In; split; [exact Ix|apply Fs; auto]|exact Is].
      + apply answers_mono, Up; try assumption. lia.
    - specialize (Rk x Ix). lia.
  Qed.
  Theorem never_stuck (r : Rnd) ns h : honest h -> (el_mix_config el <> None -> shuffles) -> (forall sk, In sk ns -> node sk) ->
    exists h', honest (h ++ h') /\ forall x sk, In x (h ++ h') -> inside x -> In sk ns -> answers dbg (h ++ h') sk x.
  Proof.
    intros Ho Shf Nds. assert (Main : forall k, exists h', honest (h ++ h') /\ answered_upto ns k (h ++ h')).
    { induction k as [|k (h' & Ho' & Up)]; [exists []; rewrite app_nil_r; split; [exact Ho|intros x sk _ _ _ Lt; lia]|].
      destruct (stage r ns k (h ++ h') Ho' Shf Nds Up) as (h2 & Ho2 & Up2). exists (h' ++ h2). rewrite app_assoc. auto. }
    destruct (Main 8) as (h' & Ho' & Up). exists h'. split; [exact Ho'|]. intros x sk Ix Ins Is. apply Up; try assumption. unfold rank. destruct (s_tx x); lia.
  Qed.
End Run.
