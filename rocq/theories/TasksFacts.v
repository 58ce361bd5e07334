(** * TasksFacts: follow-up transactions against validation. *)
From Verif Require Import Base BaseFacts Utf8 Cbor Ident BuildId IdentFacts Crypto Types Serde Store SpecStore StoreFacts
  Prost Validate ValidateFacts SpecValid ValidFacts ValidFacts2 ValidFacts3 SpecHist HistFacts Trustee Tasks SpecTasks.
From Coq Require Import Sorting.Permutation.
Open Scope list_scope.

Lemma bind_ok' {E A B} (m : res E A) (f : A -> res E B) b : (let! x := m in f x) = Ok b -> exists a, m = Ok a /\ f a = Ok b.
Proof. apply bind_ok. Qed.

Lemma map_inj {A B} (f : A -> B) : (forall a b, f a = f b -> a = b) -> forall l l', map f l = map f l' -> l = l'.
Proof.
  intros I l. induction l as [|a l IH]; intros [|b l'] E; try discriminate; [reflexivity|].
  injection E as E1 E2. f_equal; auto.
Qed.

Section Facts.
  Context {C : Crypto} {TC : TCrypto}.
  Variables (dbg : bool) (sk : ed_secret) (r : Rnd).
  Hypothesis law : ed_sign_verifies.

  Section Store.
    Variables (s : Store) (L : list STx).
    Hypothesis H : holds s L.

    Lemma as_commitment_iff t a : as_commitment t = Some a <-> t = XCommitment a.
    Proof. destruct t; cbn; split; congruence. Qed.
    Lemma as_share_iff t a : as_share t = Some a <-> t = XShare a.
    Proof. destruct t; cbn; split; congruence. Qed.

    Lemma t_election_iff i el : t_election s i = Ok el <-> at_id L i (XElection el).
    Proof.
      rewrite <- (typed_at s L H as_election XElection TElection i el as_election_iff). unfold t_election, get_election.
      split.
      - intros E. apply bind_ok in E as ([e g] & A & B). apply map_err_ok in A. injection B as <-. eauto.
      - intros (g & A). rewrite A. reflexivity.
    Qed.
    Lemma at_election_id i el : at_id L i (XElection el) -> el_id el = i.
    Proof. intros (x & _ & <- & E). unfold s_id. rewrite E. reflexivity. Qed.
    Lemma t_multiple_iff {A} (proj : Tx -> option A) mk e ty l :
      (forall t a, proj t = Some a <-> t = mk a) -> (t_multiple proj s e ty = Ok l <-> range_is L e ty mk l).
    Proof.
      intros P. rewrite <- (range_into s L H (E := TaskError) proj mk e ty l P). unfold t_multiple. apply bind_ok.
    Qed.

    Lemma full_first el k t :
      trustee_from_election el k = Some t <->
      exists t0, first_with (fun t => tr_public_key t = k) (el_trustees el) t0
        /\ t = mk_trustee (tr_public_key t0) (tr_index t0) (u_of 8 (N.of_nat (List.length (el_trustees el)))) (el_threshold el).
    Proof.
      unfold trustee_from_election, get_full_trustees. generalize (u_of 8 (N.of_nat (length (el_trustees el)))) as n.
      intros n. assert (P : forall x, pk_eqb (tr_public_key x) k = true <-> tr_public_key x = k) by (intros; apply pk_eqb_eq).
      set (f := fun t => mk_trustee (tr_public_key t) (tr_index t) n (el_threshold el)).
      assert (F : forall l, find (fun t => pk_eqb (tr_public_key t) k) (map f l)
                  = option_map f (find (fun t => pk_eqb (tr_public_key t) k) l)).
      { induction l as [|x l IH]; [reflexivity|]. cbn [map find]. unfold f at 1. cbn [tr_public_key].
        destruct (pk_eqb _ _); [reflexivity|exact IH]. }
      rewrite F. split.
      - destruct (find _ _) as [t0|] eqn:E; [|discriminate]. cbn [option_map]. intros X. injection X as <-.
        exists t0. split; [apply (find_first _ _ _ _ P), E|reflexivity].
      - intros (t0 & A & ->). apply (find_first _ _ _ _ P) in A. rewrite A. reflexivity.
    Qed.
    Lemma full_acts el k t : trustee_from_election el k = Some t ->
      acts_as el k (tr_index t) /\ tr_public_key t = k /\ lists_trustee el (tr_index t) k.
    Proof.
      intros A. apply full_first in A as (t0 & A & ->). cbn [tr_index tr_public_key].
      pose proof A as B. apply first_in in B as [B D]. split; [exists t0; auto|]. split; [exact D|].
      exists t0. auto.
    Qed.
    Lemma full_some el k : is_trustee el k -> exists t, trustee_from_election el k = Some t.
    Proof.
      intros (t0 & A & B). destruct (trustee_from_election el k) as [t|] eqn:E; [eauto|]. exfalso.
      unfold trustee_from_election, get_full_trustees in E. pose proof (find_none _ _ E) as N.
      specialize (N _ (in_map _ _ _ A)). cbn [tr_public_key] in N. rewrite B in N.
      assert (pk_eqb k k = true) by (apply pk_eqb_eq; reflexivity). congruence.
    Qed.
    Lemma full_none el k : trustee_from_election el k = None -> ~ is_trustee el k.
    Proof. intros E X. apply full_some in X as (t & X). congruence. Qed.

    Lemma tsign_valid t x : tsign sk t = Ok x -> id_type (tx_id t) = tx_type t -> ok_tx L dbg t ->
      s_tx x = t /\ validate dbg s x = Ok tt.
    Proof.
      intros S T O. unfold tsign in S. apply map_err_ok, sign_ok in S as [-> K]. split; [reflexivity|].
      apply (validate_iff s L H). cbn [s_tx]. split; [exact T|]. split; [|exact O].
      intros k E. apply K in E. subst k. unfold signed_by. cbn [s_tx s_sig]. apply law.
    Qed.
    Lemma tsign_own t : (forall p, tx_public t = Some p -> p = node_key sk) -> exists x, tsign sk t = Ok x.
    Proof.
      intros K. exists (mk_stx t (ed_sign sk (tx_bytes t))). unfold tsign. apply map_err_ok, sign_ok. auto.
    Qed.
    Lemma one_valid t l : one sk t = Ok l -> id_type (tx_id t) = tx_type t -> ok_tx L dbg t ->
      exists x, l = [x] /\ s_tx x = t /\ validate dbg s x = Ok tt.
    Proof.
      intros O T V. unfold one in O. apply bind_ok in O as (x & A & B). injection B as <-. exists x.
      split; [reflexivity|]. apply (tsign_valid _ _ A T V).
    Qed.

    (** ** key generation *)
    Lemma election_task el : at_id L (el_id el) (XElection el) -> is_trustee el (node_key sk) ->
      exists x c i, process_election sk el = Ok [x] /\ s_tx x = XCommitment c
        /\ kc_election c = el_id el /\ kc_public c = node_key sk /\ acts_as el (node_key sk) i /\ kc_trustee c = i
        /\ kc_id c = commitment_build_id (el_id el) i /\ validate dbg s x = Ok tt.
    Proof.
      intros A T. apply full_some in T as (t & T). unfold process_election. rewrite T.
      pose proof (full_acts _ _ _ T) as (B & D & E).
      set (c := mk_commitment _ _ _ _ _ _). destruct (tsign_own (XCommitment c)) as (x & X).
      { intros p P. injection P as <-. exact D. }
      unfold one. rewrite X. cbn [bind]. exists x, c, (tr_index t).
      assert (V : s_tx x = XCommitment c /\ validate dbg s x = Ok tt).
      { apply (tsign_valid _ _ X); [reflexivity|]. cbn [ok_tx]. exists el. split; [exact A|].
        cbn [c kc_trustee kc_public]. rewrite D. exact E. }
      destruct V. repeat (split; [assumption || reflexivity|]). assumption.
    Qed.

    Lemma put_fst k v l : map fst (put k v l) = if mem_key Byte.eqb k (map fst l) then map fst l else map fst l ++ [k].
    Proof.
      induction l as [|[k' v'] l IH]; [reflexivity|]. cbn [put map fst mem_key].
      destruct (Byte.eqb k k') eqn:E; cbn [map fst orb]; [reflexivity|]. rewrite IH.
      destruct (mem_key Byte.eqb k (map fst l)); reflexivity.
    Qed.
    Lemma shares_from_keys {E} keys : forall n nonces g e m m', @shares_from C TC E n nonces g sk e keys m = Ok m' ->
      NoDup (map fst (sv m) ++ map fst keys) -> map fst (sv m') = map fst (sv m) ++ map fst keys.
    Proof.
      induction keys as [|[i k] keys IH]; intros n nonces g e m m' S N.
      - injection S as <-. rewrite app_nil_r. reflexivity.
      - cbn [shares_from] in S. apply bind_ok in S as (sc & _ & S). cbn [map fst] in N |- *.
        assert (P : map fst (sv (imap_put i (es_new (nonces n) (shared_secret sk e k) sc) m)) = map fst (sv m) ++ [i]).
        { cbn [imap_put sv]. rewrite put_fst. destruct (mem_key _ _ _) eqn:M; [|reflexivity].
          apply (mem_key_in _ byte_eqb_eq) in M. exfalso. apply NoDup_remove_2 in N. apply N, in_or_app. auto. }
        apply IH in S; rewrite P in *; rewrite <- app_assoc in *; [exact S|exact N].
    Qed.

    Lemma commitment_task c l x : process_keygen_commitment sk r s c = Ok l -> In x l ->
      (forall el cs, at_id L (kc_election c) (XElection el) -> range_is L (kc_election c) TKeyGenCommitment XCommitment cs ->
         distinct_indices el /\ one_each kc_trustee el cs) ->
      exists sh, s_tx x = XShare sh /\ ks_public sh = node_key sk /\ ks_election sh = kc_election c /\ validate dbg s x = Ok tt.
    Proof.
      intros P I Hc. unfold process_keygen_commitment in P. apply bind_ok in P as (el & A & P).
      apply t_election_iff in A. pose proof (at_election_id _ _ A) as Ei.
      destruct (trustee_from_election el (node_key sk)) as [t|] eqn:T; [|injection P as <-; destruct I].
      apply bind_ok in P as (cs & R & P). apply (t_multiple_iff _ _ _ _ _ as_commitment_iff) in R. rewrite Ei in R.
      destruct (Nat.eqb _ _) eqn:N; [|injection P as <-; destruct I]. apply Nat.eqb_eq in N.
      apply bind_ok in P as (shares & G & P). pose proof (full_acts _ _ _ T) as (B & D & E).
      destruct (Hc el cs A R) as [Hd Ho].
      assert (K : map fst (sv shares) = map kc_trustee cs).
      { unfold generate_shares in G. apply bind_ok in G as (g & _ & G).
        assert (M : map fst (x_keys_of cs) = map kc_trustee cs) by (unfold x_keys_of; rewrite map_map; reflexivity).
        apply shares_from_keys in G; cbn [imap_empty sv map app] in *; rewrite M in *; [exact G|].
        apply (Permutation_NoDup (Permutation_sym Ho)). exact Hd. }
      apply one_valid in P.
      - destruct P as (y & -> & Y1 & Y2). destruct I as [<-|[]]. eexists. split; [exact Y1|].
        cbn [ks_public ks_election]. auto.
      - reflexivity.
      - cbn [ok_tx]. exists el. cbn [ks_election ks_trustee ks_public ks_shares]. rewrite Ei, D.
        split; [exact A|]. split; [exact E|]. split.
        + rewrite <- N. rewrite <- (map_length fst), K, map_length. reflexivity.
        + intros tr Htr. assert (I' : In (tr_index tr) (map fst (sv shares))).
          { rewrite K. apply (Permutation_in _ (Permutation_sym Ho)), in_map, Htr. }
          apply in_map_iff in I' as ([i b] & F & I'). cbn [fst] in F. subst i. eauto.
    Qed.

    Lemma share_task sh l x : process_keygen_share sk s sh = Ok l -> In x l ->
      exists p, s_tx x = XPublicKey p /\ kp_public p = node_key sk /\ kp_election p = ks_election sh
        /\ kp_id p = pubkey_build_id (ks_election sh) (kp_trustee p) /\ validate dbg s x = Ok tt.
    Proof.
      intros P I. unfold process_keygen_share in P. apply bind_ok in P as (el & A & P).
      apply t_election_iff in A. pose proof (at_election_id _ _ A) as Ei.
      destruct (trustee_from_election el (node_key sk)) as [t|] eqn:T; [|injection P as <-; destruct I].
      apply bind_ok in P as (shs & R & P). destruct (negb _); [injection P as <-; destruct I|].
      apply bind_ok in P as (cs & _ & P). apply bind_ok in P as (shares & _ & P). apply bind_ok in P as (kp & _ & P).
      pose proof (full_acts _ _ _ T) as (B & D & E). apply one_valid in P.
      - destruct P as (y & -> & Y1 & Y2). destruct I as [<-|[]]. eexists. split; [exact Y1|].
        cbn [kp_public kp_election kp_id kp_trustee]. rewrite Ei. auto.
      - reflexivity.
      - cbn [ok_tx]. exists el. cbn [kp_election kp_trustee kp_public]. rewrite Ei, D. auto.
    Qed.

    Lemma pubkey_task p l x : process_keygen_public_key sk s p = Ok l -> In x l ->
      exists k el pks, s_tx x = XEncryptionKey k /\ ek_key k = kp_key p /\ ek_election k = kp_election p
        /\ ek_id k = enckey_build_id (kp_election p)
        /\ at_id L (kp_election p) (XElection el) /\ range_is L (kp_election p) TKeyGenPublicKey XPublicKey pks
        /\ (validate dbg s x = Ok tt <->
            (forall tr, In tr (el_trustees el) ->
               exists q, In q pks /\ kp_trustee q = tr_index tr /\ kp_public q = tr_public_key tr)
            /\ forall q, In q pks -> kp_key q = kp_key p).
    Proof.
      intros P I. unfold process_keygen_public_key in P. apply bind_ok in P as (el & A & P).
      apply t_election_iff in A. pose proof (at_election_id _ _ A) as Ei.
      destruct (pk_eqb (el_authority el) (node_key sk)) eqn:K; [|injection P as <-; destruct I]. apply pk_eqb_eq in K.
      apply bind_ok in P as (pks & R & P). apply (t_multiple_iff _ _ _ _ _ as_pubkey_iff) in R. rewrite Ei in R.
      destruct (Nat.eqb _ _) eqn:N; [|injection P as <-; destruct I]. apply Nat.eqb_eq in N.
      unfold one in P. apply bind_ok in P as (y & S & P). injection P as <-. destruct I as [<-|[]].
      unfold tsign in S. apply map_err_ok, sign_ok in S as [-> S]. cbn [s_tx].
      eexists; exists el, pks. split; [reflexivity|]. cbn [ek_key ek_election ek_id]. rewrite Ei.
      split; [reflexivity|]. split; [reflexivity|]. split; [reflexivity|]. split; [exact A|]. split; [exact R|].
      rewrite (validate_iff s L H). cbn [s_tx ok_tx]. unfold ok_enckey. cbn [ek_election ek_authority ek_key]. split.
      - intros (_ & _ & el' & pks' & A' & _ & R' & _ & V1 & V2).
        assert (E1 : XElection el' = XElection el) by (apply (at_id_fun s L H _ _ _ A' A)). injection E1 as ->.
        assert (E2 : map XPublicKey pks' = map XPublicKey pks) by (unfold range_is in *; congruence).
        apply map_inj in E2; [|congruence]. subst pks'. auto.
      - intros [V1 V2]. split; [reflexivity|]. split.
        + intros k E. unfold signed_by. cbn [s_tx s_sig]. cbn [tx_public ek_authority] in E. injection E as <-.
          rewrite K. apply law.
        + exists el, pks. rewrite <- N. auto 10.
    Qed.
  End Store.
End Facts.
