(** * NetFacts: lemmas for Props_Net. *)
From Verif Require Import Base BaseFacts Utf8 Cbor CborFacts Ident BuildId IdentFacts Crypto Types Serde Store SpecStore StoreFacts
  Validate ValidateFacts SpecValid ValidFacts ValidFacts3 SpecHist HistFacts MixFacts Encrypt Trustee Tasks SpecTasks TasksFacts TasksFacts2 TasksFacts3
  Service SpecService ServiceFacts SpecThreshold Lagrange ThresholdFacts SpecRun RunFacts Exonum SpecLedger LedgerFacts SpecSerde SerdeFacts
  SpecCli CliFacts OutcomeFacts SpecNet.
From Verif Require ReserFacts.
From Coq Require Import ZifyBool ZifyNat ZifyN Sorting.Permutation.
Open Scope list_scope.

Section Same.
  Context {C : Crypto} {TC : TCrypto}.
  Variables (dbg : bool) (sk : ed_secret) (r : Rnd).
  (** *** the nodes read only the content of the ledger *)
  Lemma t_election_same s s' i : same_reads s s' -> t_election s i = t_election s' i.
  Proof. intros H. unfold t_election, get_election. rewrite (typed_same _ _ _ _ _ H). reflexivity. Qed.
  Lemma t_multiple_same {A} (proj : Tx -> option A) s s' e ty : same_reads s s' -> t_multiple proj s e ty = t_multiple proj s' e ty.
  Proof. intros H. unfold t_multiple. rewrite (multiple_same _ _ _ _ H). reflexivity. Qed.
  Lemma t_enckey_same s s' e : same_reads s s' -> t_enckey s e = t_enckey s' e.
  Proof. intros [H _]. unfold t_enckey. rewrite H. reflexivity. Qed.
  Lemma produce_same s s' el t c m : same_reads s s' -> produce_partials sk r s el t c m = produce_partials sk r s' el t c m.
  Proof. intros H. unfold produce_partials. rewrite !(t_multiple_same _ _ _ _ _ H). reflexivity. Qed.
  Lemma t_row_same s s' p : same_reads s s' -> t_row s p = t_row s' p.
  Proof. intros H. unfold t_row, get_vote, get_mix. rewrite !(typed_same _ _ _ _ _ H). reflexivity. Qed.
  Lemma gen_same s s' x : same_reads s s' -> generate_transactions dbg sk r s x = generate_transactions dbg sk r s' x.
  Proof.
    intros H. unfold generate_transactions. destruct (s_tx x) as [t|t|t|t|t|t|t|t|t|t]; try reflexivity.
    - unfold process_keygen_commitment. rewrite (t_election_same _ _ _ H). apply bind_ext. intros el.
      rewrite (t_multiple_same _ _ _ _ _ H). reflexivity.
    - unfold process_keygen_share. rewrite (t_election_same _ _ _ H). apply bind_ext. intros el.
      rewrite !(t_multiple_same _ _ _ _ _ H). reflexivity.
    - unfold process_keygen_public_key. rewrite (t_election_same _ _ _ H). apply bind_ext. intros el.
      rewrite (t_multiple_same _ _ _ _ _ H). reflexivity.
    - unfold process_voting_end. rewrite (t_election_same _ _ _ H). apply bind_ext. intros el.
      rewrite (t_multiple_same _ _ _ _ _ H), (t_enckey_same _ _ _ H).
      destruct (trustee_from_election el (node_key sk)); [|reflexivity]. destruct (el_mix_config el); [reflexivity|].
      destruct (el_contests el); [reflexivity|]. apply produce_same, H.
    - unfold process_mix. rewrite (t_election_same _ _ _ H). apply bind_ext. intros el. rewrite (t_enckey_same _ _ _ H).
      destruct (trustee_from_election el (node_key sk)); [|reflexivity]. destruct (el_mix_config el); [|reflexivity].
      apply bind_ext. intros next. rewrite (produce_same _ _ _ _ _ _ H). reflexivity.
    - unfold process_partial_decryption. rewrite (t_election_same _ _ _ H). apply bind_ext. intros el.
      destruct (trustee_from_election el (node_key sk)); [|reflexivity]. cbn zeta. pose proof H as [_ Rg]. rewrite Rg.
      + rewrite (t_row_same _ _ _ H), (t_multiple_same _ _ _ _ _ H). reflexivity.
      + unfold id_le, id_cmp. cbn [id_election id_type id_unique]. rewrite lex_refl, byte_cmp_refl, !with_last_l, lex_app_same. discriminate.
  Qed.

  (** *** what a node makes belongs to the election of what it answers *)
  Definition follows (e : Identifier) (y : STx) : Prop :=
    named_election (s_tx y) = Some e /\ id_election (s_id y) = id_election e /\ plain (s_tx y).
  Lemma one_follows e t l y : one sk t = Ok l -> In y l -> named_election t = Some e -> id_election (tx_id t) = id_election e ->
    plain t -> follows e y.
  Proof. intros E I A B D. pose proof (one_tx sk t l y E I) as Ty. unfold follows, s_id. rewrite Ty. auto. Qed.
  Lemma partials_follow e : forall l i t keys cs shares xs y, partials_from sk r i t keys cs shares e l = Ok xs -> In y xs -> follows e y.
  Proof.
    induction l as [|[[[up idx] c] cts] l IH]; intros i t keys cs shares xs y G I; cbn [partials_from] in G.
    - injection G as <-. destruct I.
    - apply bind_ok in G as (ds & _ & G). apply bind_ok in G as (x & X & G). apply bind_ok in G as (xs' & G' & G). injection G as <-.
      destruct I as [<-|I]; [|exact (IH _ _ _ _ _ _ _ G' I)]. apply tsign_tx in X as (Tx & _). unfold follows, s_id. rewrite Tx. repeat split.
  Qed.
  Lemma produce_follows s el t c m xs y : produce_partials sk r s el t c m = Ok xs -> In y xs -> follows (el_id el) y.
  Proof.
    unfold produce_partials. intros G I. apply bind_ok in G as (shs & _ & G). apply bind_ok in G as (cs & _ & G). apply bind_ok in G as (sh & _ & G).
    destruct m as [m|]; [exact (partials_follow _ _ _ _ _ _ _ _ _ G I)|]. apply bind_ok in G as (vs & _ & G). exact (partials_follow _ _ _ _ _ _ _ _ _ G I).
  Qed.
  Lemma mixes_follow el t key : forall l n xs y, first_mixes sk r n el t key l = Ok xs -> In y xs -> follows (el_id el) y.
  Proof.
    induction l as [|[c votes] l IH]; intros n xs y G I; cbn [first_mixes] in G.
    - injection G as <-. destruct I.
    - apply bind_ok in G as (mp & _ & G). apply bind_ok in G as (x & X & G). apply bind_ok in G as (xs' & G' & G). injection G as <-.
      destruct I as [<-|I]; [|exact (IH _ _ _ G' I)]. apply tsign_tx in X as (Tx & _). unfold follows, s_id. rewrite Tx. repeat split.
  Qed.
  Lemma gen_follows s L x l y : holds s L -> generate_transactions dbg sk r s x = Ok l -> In y l -> follows (tx_election (s_tx x)) y.
  Proof.
    intros H G I. unfold generate_transactions in G.
    assert (El : forall i el, t_election s i = Ok el -> el_id el = i) by (intros i el E; exact (t_election_id s i el E L H)).
    destruct (s_tx x) as [t|t|t|t|t|t|t|t|t|t] eqn:Tx; try (injection G as <-; destruct I); cbn [tx_election].
    - unfold process_election in G. destruct (trustee_from_election t (node_key sk)) as [tr|]; [|injection G as <-; destruct I].
      apply (one_follows _ _ _ _ G I); repeat split.
    - unfold process_keygen_commitment in G. apply bind_ok in G as (el & A & G). apply El in A as <-.
      destruct (trustee_from_election el (node_key sk)) as [tr|]; [|injection G as <-; destruct I]. apply bind_ok in G as (cs & _ & G).
      destruct (Nat.eqb _ _); [|injection G as <-; destruct I]. apply bind_ok in G as (sh & _ & G). apply (one_follows _ _ _ _ G I); repeat split.
    - unfold process_keygen_share in G. apply bind_ok in G as (el & A & G). apply El in A as <-.
      destruct (trustee_from_election el (node_key sk)) as [tr|]; [|injection G as <-; destruct I]. apply bind_ok in G as (shs & _ & G).
      destruct (negb _); [injection G as <-; destruct I|]. apply bind_ok in G as (cs & _ & G). apply bind_ok in G as (sh & _ & G).
      apply bind_ok in G as (kp & _ & G). apply (one_follows _ _ _ _ G I); repeat split.
    - unfold process_keygen_public_key in G. apply bind_ok in G as (el & A & G). apply El in A as <-.
      destruct (pk_eqb _ _); [|injection G as <-; destruct I]. apply bind_ok in G as (pks & _ & G).
      destruct (Nat.eqb _ _); [|injection G as <-; destruct I]. apply (one_follows _ _ _ _ G I); repeat split.
    - unfold process_voting_end in G. apply bind_ok in G as (el & A & G). apply El in A as <-.
      destruct (trustee_from_election el (node_key sk)) as [tr|]; [|injection G as <-; destruct I]. destruct (el_mix_config el).
      + destruct (Byte.eqb _ _); [|injection G as <-; destruct I]. apply bind_ok in G as (k & _ & G). apply bind_ok in G as (vs & _ & G).
        exact (mixes_follow _ _ _ _ _ _ _ G I).
      + destruct (el_contests el); [injection G as <-; destruct I|]. exact (produce_follows _ _ _ _ _ _ _ G I).
    - unfold process_mix in G. apply bind_ok in G as (el & A & G). apply El in A as <-.
      destruct (trustee_from_election el (node_key sk)) as [tr|]; [|injection G as <-; destruct I].
      destruct (el_mix_config el); [|injection G as <-; destruct I]. apply bind_ok in G as (nx & _ & G).
      destruct (Byte.eqb _ _); [exact (produce_follows _ _ _ _ _ _ _ G I)|]. apply bind_ok in G as (tu & _ & G).
      destruct (Byte.eqb _ _); [|injection G as <-; destruct I]. apply bind_ok in G as (k & _ & G). apply bind_ok in G as (mp & _ & G).
      apply (one_follows _ _ _ _ G I); repeat split.
    - unfold process_partial_decryption in G. apply bind_ok in G as (el & A & G). apply El in A as <-.
      destruct (trustee_from_election el (node_key sk)) as [tr|]; [|injection G as <-; destruct I]. cbn zeta in G. apply bind_ok in G as (lr & _ & G).
      destruct (Nat.leb _ _); [|injection G as <-; destruct I]. apply bind_ok in G as (ps & _ & G). apply bind_ok in G as (ct & _ & G).
      apply bind_ok in G as (pks & _ & G). apply bind_ok in G as (sels & _ & G). apply (one_follows _ _ _ _ G I); repeat split.
  Qed.
End Same.

Section Chain.
  Context {C : Crypto}.
  Variable dbg : bool.
  (** *** chains, envelope by envelope *)
  Lemma accepted_app l2 : forall l1 L, accepted dbg L (l1 ++ l2) = accepted dbg L l1 ++ accepted dbg (run dbg L l1) l2.
  Proof.
    induction l1 as [|e l1 IH]; intros L; [reflexivity|]. cbn [app accepted]. unfold run. cbn [fold_left]. unfold submit at 2.
    destruct (verify_and_store dbg L e) as [L'| |] eqn:V.
    - pose proof V as V'. apply store_ok in V' as (_ & (x & D & _) & _). unfold carries in D. rewrite D. cbn [app]. f_equal. apply IH.
    - apply IH.
    - apply IH.
  Qed.
  Lemma accepted_one L en : accepted dbg L [en] = [] \/ exists x L', accepted dbg L [en] = [x] /\ verify_and_store dbg L en = Ok L' /\ carries en x.
  Proof.
    cbn [accepted]. destruct (verify_and_store dbg L en) as [L'| |] eqn:V; auto.
    pose proof V as V'. apply store_ok in V' as (_ & (x & D & _) & _). right. exists x, L'. pose proof D as D'. unfold carries in D'. rewrite D'. auto.
  Qed.
  (** an accepted envelope of an honest sender extends the history *)
  Lemma honest_one envs en x L' : Forall SpecLedger.honest envs -> SpecLedger.honest en -> verify_and_store dbg (run dbg [] envs) en = Ok L' -> carries en x ->
    fresh (accepted dbg [] envs) (s_id x) /\ validate dbg (ms_store (ms_from (accepted dbg [] envs))) x = Ok tt.
  Proof.
    intros F He V Ca. destruct (honest_run0 dbg envs F) as (Hh & HL & D & W).
    destruct (honest_step dbg _ en x L' _ W HL He Ca V D Hh) as (Hh' & _).
    inversion Hh' as [E|h0 x0 H0 F0 V0 E]; [destruct (accepted dbg [] envs); discriminate E|]. apply app_inj_tail in E as [-> ->]. auto.
  Qed.
  Lemma env_app (b1 b2 : list (list (option Env))) : envelopes (b1 ++ b2) = envelopes b1 ++ envelopes b2.
  Proof. apply flat_map_app. Qed.
  Lemma by_app (b1 b2 : list (list (option Env))) : recorded_by dbg (b1 ++ b2) = recorded_by dbg b1 ++ accepted dbg (ledger_after dbg b1) (envelopes b2).
  Proof. unfold recorded_by. rewrite env_app, accepted_app. reflexivity. Qed.
  Lemma by_prefix (b1 b2 : list (list (option Env))) : exists h, recorded_by dbg (b1 ++ b2) = recorded_by dbg b1 ++ h.
  Proof. eexists. apply by_app. Qed.
  Lemma env_fill bs b o : envelopes (bs ++ [b ++ [o]]) = envelopes (bs ++ [b]) ++ match o with Some en => [en] | None => [] end.
  Proof.
    rewrite !env_app. unfold envelopes at 2 4. cbn [flat_map]. rewrite !app_nil_r, flat_map_app, <- app_assoc. f_equal.
    cbn [flat_map]. rewrite app_nil_r. reflexivity.
  Qed.
  Lemma env_empty bs : envelopes (bs ++ [[]]) = envelopes bs.
  Proof. rewrite env_app. unfold envelopes at 2. cbn [flat_map]. apply app_nil_r. Qed.
End Chain.

(** *** an envelope that can be read was written within the limits of the format *)
Lemma cwf_short v : (clen (cenc v) < pow256 8)%N -> cwf v = true.
Proof.
  assert (FM : forall X (f : X -> bytes) l, (forall x, 1 <= length (f x)) -> length l <= length (flat_map f l)
                 /\ forall x, In x l -> length (f x) <= length (flat_map f l)).
  { intros X f l H. induction l as [|y l [IH1 IH2]]; [split; [reflexivity|intros x []]|]. cbn [flat_map length]. rewrite app_length.
    pose proof (H y). split; [lia|]. intros x [<-|I]; [lia|]. specialize (IH2 x I). lia. }
  unfold clen. induction v using cval_ind'; intros L; cbn [cenc cwf] in *; try reflexivity; rewrite ?app_length in L.
  - apply N.ltb_lt. unfold clen. lia.
  - apply N.ltb_lt. unfold clen. lia.
  - destruct (FM _ cenc l cenc_nonempty) as [F1 F2]. apply andb_true_iff. split; [apply N.ltb_lt; unfold clen; lia|].
    apply forallb_forall. intros x Ix. rewrite Forall_forall in H. apply (H x Ix). specialize (F2 x Ix). lia.
  - set (f := fun p : cval * cval => let (a, b) := p in cenc a ++ cenc b) in *. destruct (FM _ f l) as [F1 F2].
    { intros [a b]. unfold f. rewrite app_length. pose proof (cenc_nonempty a). lia. }
    apply andb_true_iff. split; [apply N.ltb_lt; unfold clen; lia|].
    apply forallb_forall. intros [a b] Ix. rewrite Forall_forall in H. destruct (H _ Ix) as [Ha Hb]. cbn [fst snd] in Ha, Hb.
    specialize (F2 _ Ix). unfold f at 1 in F2. rewrite app_length in F2. apply andb_true_iff. split; [apply Ha|apply Hb]; lia.
Qed.
Lemma pow64 : pow256 8 = (2 ^ 64)%N.
Proof. vm_compute. reflexivity. Qed.
Lemma read_slice {C : Crypto} l x : stx_from_bytes l = Ok x -> exists v, cbor_from_slice l = Some v.
Proof. unfold stx_from_bytes. destruct (cbor_from_slice l) as [v|]; [eauto|discriminate]. Qed.
Lemma read_small v l : l = cenc v -> (N.of_nat (length l) < 2 ^ 64)%N -> (exists w, cbor_from_slice l = Some w) -> small 127 v.
Proof.
  intros -> Ln (w & E). assert (W : cwf v = true) by (apply cwf_short; rewrite pow64; unfold clen; exact Ln). split; [exact W|].
  exact (ReserFacts.slice_depth _ _ W E).
Qed.
Lemma written_small {C : Crypto} en y : written en -> en = into_env y -> small 127 (ser_stx y).
Proof.
  intros [Ln (x & Ca)] E. apply (read_small (ser_stx y) (en_data en)); [rewrite E; reflexivity|exact Ln|exact (read_slice _ _ Ca)].
Qed.

Section Net.
  Context {C : Crypto} {TC : TCrypto} {K : Fld} {M : Mdl} (S : threshold_scheme K M).
  Context (DH : dh_agrees) (Op : gcm_opens) (Sc : scalar_faithful) (law : ed_sign_verifies).
  Context {R : Type} (eg : EGPublicKey -> R -> bytes -> Ciphertext * R) (En : encrypting S eg).
  Variables (dbg : bool) (el : ElectionTx) (T : people) (contests : list u32).
  Hypothesis SU : set_up el T contests.
  Hypothesis shv : el_mix_config el <> None -> shuffle_verifies.
  Notation e := (el_id el).
  Notation inside := (inside el).
  Notation outside := (outside el).
  Notation node := (node el T).
  Notation honest := (SpecRun.honest eg dbg el T contests).
  Notation network := (network eg dbg el T contests).
  Notation recorded_by := (recorded_by dbg).

  Lemma honest_split h x : honest h -> history dbg h -> In x h -> inside x \/ outside x.
  Proof.
    intros Ho. induction Ho as [h z Hh Out Tx _ _|h z Ho IH Out _ _|h z v Ho IH Tx V _ _|h z ve Ho IH Tx V1 V2 Ke _ _
                    |h1 h2 sk r z l y Ho IH Nd Ix In1 G Iz _]; intros Hx I; (apply in_app_or in I as [I|[<-|[]]]; [|]).
    - right. apply Out, I.
    - left. unfold SpecRun.inside, s_id. rewrite Tx. reflexivity.
    - apply IH; [exact (hist_prefix dbg _ _ Hx)|exact I].
    - right. exact Out.
    - apply IH; [exact (hist_prefix dbg _ _ Hx)|exact I].
    - left. apply (named_inside dbg el (h ++ [z]) z Hx); [apply in_or_app; right; left; reflexivity|]. rewrite Tx. apply (vo_election _ _ _ _ _ V).
    - apply IH; [exact (hist_prefix dbg _ _ Hx)|exact I].
    - left. unfold SpecRun.inside, s_id. rewrite Tx. cbn [tx_id]. rewrite V2. reflexivity.
    - apply IH; [exact (hist_prefix dbg _ _ Hx)|exact I].
    - left. destruct (gen_follows dbg sk r _ _ z l y (stored_holds h1) G Iz) as (_ & E & _).
      unfold SpecRun.inside. rewrite E. f_equal. rewrite <- app_assoc in Hx.
      apply (inside_names S DH Op Sc eg dbg el T contests SU shv h1 z); [exact (honest_prefix eg dbg el T contests h2 h1 z Ho Ix In1)|exact (hist_prefix dbg _ _ Hx)|exact Ix|exact In1].
  Qed.

  (** *** what a node sends after a chain *)
  Lemma sends_inv sk bs out en : bs <> [] -> Forall SpecLedger.honest (envelopes bs) -> sends dbg sk bs out -> In en out ->
    exists r en0 x l y, In (Some en0) (last (removelast bs) []) /\ id_from_str (sv (en_id en0)) = Ok (s_id x)
      /\ In x (recorded_by bs) /\ generate_transactions dbg sk r (ms_store (ms_from (recorded_by bs))) x = Ok l
      /\ In y l /\ en = into_env y /\ fresh (recorded_by bs) (s_id y).
  Proof.
    intros N F (r & A) I. destruct (honest_run0 dbg (envelopes bs) F) as (Hh & HL & D & W).
    pose proof (honest_holds _ W HL) as HH. rewrite D in HH.
    apply (sent_exactly dbg sk r bs out N A) in I as (n & en0 & i & x & l & y & I0 & Ei & Ex & G & Iy & Een & Fr).
    change (ledger_after dbg bs) with (run dbg [] (envelopes bs)) in *.
    rewrite (ex_get_entry _ _ W HL), D in Ex. injection Ex as Ex. apply (hist_entry dbg _ _ _ Hh) in Ex as [Ix Ex]. subst i.
    exists (r n), en0, x, l, y. split; [exact (nth_error_In _ _ I0)|]. split; [exact Ei|]. split; [exact Ix|]. split.
    { rewrite <- G. apply gen_same, (holds_same _ _ (stored (recorded_by bs))); [apply stored_holds|exact HH]. }
    split; [exact Iy|]. split; [exact Een|]. intros z Iz Ez. apply (hist_stored dbg _ z Hh) in Iz. rewrite <- D in Iz.
    apply (decoded_in _ _ W HL) in Iz as (e' & Ie & _). rewrite Ez in Ie. exact (Fr e' Ie).
  Qed.

  Definition started (h : list STx) : Prop := honest h \/ forall y, In y h -> outside y.
  Lemma started_split h x : started h -> history dbg h -> In x h -> inside x \/ outside x.
  Proof. intros [Ho|Out] Hh I; [apply (honest_split h x Ho Hh I)|right; apply Out, I]. Qed.
  Lemma out_in x : outside x -> ~ inside x.
  Proof. intros [A _]. exact A. Qed.
  Lemma started_prefix h1 h2 : started (h1 ++ h2) -> history dbg (h1 ++ h2) -> started h1.
  Proof.
    intros St Hh. destruct (existsb (fun x => arr_eqb (id_election (s_id x)) (id_election e)) h1) eqn:X.
    - apply existsb_exists in X as (x & Ix & Ex). apply arr_eqb_eq in Ex. destruct St as [Ho|Ou].
      + left. exact (honest_prefix eg dbg el T contests h2 h1 x Ho Ix Ex).
      + destruct (Ou x) as [O _]; [apply in_or_app; left; exact Ix|]. contradiction.
    - right. intros y Iy. destruct (started_split _ y St Hh) as [In1|O]; [apply in_or_app; left; exact Iy| |exact O]. exfalso.
      assert (Y : existsb (fun x => arr_eqb (id_election (s_id x)) (id_election e)) h1 = true); [|congruence].
      apply existsb_exists. exists y. split; [exact Iy|]. apply arr_eqb_eq, In1.
  Qed.
  (** the answer to a transaction of another election belongs to that one *)
  Lemma answer_outside h sk r x l y : started h -> history dbg h -> In x h -> outside x ->
    generate_transactions dbg sk r (ms_store (ms_from h)) x = Ok l -> In y l -> outside y.
  Proof.
    intros St Hh Ix Out G Iy. destruct (gen_follows dbg sk r _ _ x l y (stored_holds h) G Iy) as (Na & Id & _).
    assert (Ne : id_election (tx_election (s_tx x)) <> id_election e).
    { destruct (named_election (s_tx x)) as [e'|] eqn:Nx.
      - destruct (election_total dbg h Hh x e' Ix Nx) as (el' & At).
        assert (Et : tx_election (s_tx x) = e') by (destruct (s_tx x); try discriminate Nx; injection Nx as <-; reflexivity). rewrite Et.
        pose proof At as At'. apply (hist_at_id dbg _ _ _ Hh) in At as (z & Iz & Ez & Tz). destruct (started_split h z St Hh Iz) as [In1|[In1 _]].
        + destruct St as [Ho|Ou]; [|destruct (out_in z (Ou z Iz) In1)].
          pose proof (inside_election eg dbg el T contests h z el' Ho Hh Iz In1 Tz) as ->.
          apply at_election_id in At'. destruct Out as [_ Out]. rewrite Nx in Out. congruence.
        + unfold SpecRun.inside in In1. rewrite Ez in In1. exact In1.
      - destruct (s_tx x) as [t|t|t|t|t|t|t|t|t|t] eqn:Tx; try discriminate Nx. destruct Out as [Out _]. unfold SpecRun.inside, s_id in Out. rewrite Tx in Out. exact Out. }
    split.
    - unfold SpecRun.inside. rewrite Id. exact Ne.
    - rewrite Na. intros E. injection E as E. rewrite E in Ne. apply Ne. reflexivity.
  Qed.
  Lemma key_inside h k i t : at_id h i t -> id_election i = id_election e -> (forall y, In y h -> outside y) -> k = tt -> False.
  Proof. intros (z & Iz & Ez & _) E Out _. apply (out_in z (Out z Iz)). unfold SpecRun.inside. rewrite Ez. exact E. Qed.

  (** *** every chain of the network records an honest history *)
  Lemma net_inv bs b : network bs b ->
    Forall SpecLedger.honest (envelopes (bs ++ [b])) /\ Forall readable (envelopes (bs ++ [b])) /\ started (recorded_by (bs ++ [b])).
  Proof.
    induction 1 as [|bs b Nw (IH1 & IH2 & IH3)|bs b Nw (IH1 & IH2 & IH3)|bs b en Nw (IH1 & IH2 & IH3) Or].
    - split; [constructor|]. split; [constructor|]. right. intros y [].
    - unfold SpecNet.recorded_by. rewrite env_empty. auto.
    - unfold SpecNet.recorded_by. rewrite env_fill, app_nil_r. auto.
    - set (h := recorded_by (bs ++ [b])) in *. destruct (honest_run0 dbg _ IH1) as (Hh & _). fold (recorded_by (bs ++ [b])) in Hh. fold h in Hh.
      assert (He : SpecLedger.honest en /\ readable en).
      { assert (Rd : forall i, sv (en_id en) = id_to_string i -> readable en) by (intros i Ei p; rewrite Ei, id_from_to_string; discriminate).
        destruct Or as [A B _|x A Ca _|x v A Ca _ _|x ve A Ca _ _ _ _|bs1 bs2 sk out Eb Nb _ Sd Io Sm].
        - auto.
        - split; [exact A|]. apply (Rd (s_id x)), A, Ca.
        - split; [exact A|]. apply (Rd (s_id x)), A, Ca.
        - split; [exact A|]. apply (Rd (s_id x)), A, Ca.
        - assert (F1 : Forall SpecLedger.honest (envelopes bs1)) by (rewrite Eb, <- app_assoc, env_app in IH1; apply Forall_app in IH1; apply IH1).
          destruct (sends_inv sk bs1 out en Nb F1 Sd Io) as (_ & _ & _ & _ & y & _ & _ & _ & _ & _ & Ey & _). apply (written_small _ y) in Sm; [|exact Ey].
          split; [rewrite Ey; apply env_honest, Sm|]. apply (Rd (s_id y)). rewrite Ey. reflexivity. }
      destruct He as [He Hr]. rewrite env_fill. split; [apply Forall_app; split; [exact IH1|constructor; [exact He|constructor]]|].
      split; [apply Forall_app; split; [exact IH2|constructor; [exact Hr|constructor]]|].
      assert (Eh : recorded_by (bs ++ [b ++ [Some en]]) = h ++ accepted dbg (run dbg [] (envelopes (bs ++ [b]))) [en]).
      { unfold SpecNet.recorded_by. rewrite env_fill, accepted_app. reflexivity. }
      rewrite Eh. destruct (accepted_one dbg (run dbg [] (envelopes (bs ++ [b]))) en) as [E0|(x & L' & E1 & V & Ca)]; [rewrite E0, app_nil_r; exact IH3|]. rewrite E1.
      destruct (honest_one dbg _ en x L' IH1 He V Ca) as (Fr & Va). fold (recorded_by (bs ++ [b])) in Fr, Va. fold h in Fr, Va.
      assert (Same : forall z, carries en z -> z = x) by (intros z Cz; unfold carries in *; congruence).
      assert (More : outside x -> started (h ++ [x])).
      { intros Out. destruct IH3 as [Ho|Ou]; [left; apply ho_other; assumption|right].
        intros y Iy. apply in_app_or in Iy as [Iy|[<-|[]]]; auto. }
      destruct Or as [_ _ Out|z _ Cz Tz|z v _ Cz Tz Vo|z ve _ Cz Tz V1 V2 Ke|bs1 bs2 sk out Eb Nb Nd Sd Io Sm].
      + apply More, Out, Ca.
      + rewrite (Same z Cz) in Tz. destruct IH3 as [Ho|Ou].
        * exfalso. destruct (has_election eg dbg el T contests h Ho) as (w & Iw & Tw). apply (Fr w Iw). unfold s_id. rewrite Tw, Tz. reflexivity.
        * left. apply ho_start; assumption.
      + rewrite (Same z Cz) in Tz. destruct IH3 as [Ho|Ou]; [left; apply (ho_vote _ _ _ _ _ h x v); assumption|].
        exfalso. destruct (vo_key _ _ _ _ _ Vo) as (k & At & _). apply (key_inside h tt _ _ At); [reflexivity|exact Ou|reflexivity].
      + rewrite (Same z Cz) in Tz. destruct IH3 as [Ho|Ou]; [left; apply (ho_end _ _ _ _ _ h x ve); assumption|].
        exfalso. destruct Ke as (k & At). apply (key_inside h tt _ _ At); [reflexivity|exact Ou|reflexivity].
      + subst bs. set (h1 := recorded_by bs1). destruct (by_prefix dbg bs1 (bs2 ++ [b])) as (h2 & E2).
        assert (Eh1 : h = h1 ++ h2) by (unfold h; rewrite <- app_assoc; exact E2). assert (F1 : Forall SpecLedger.honest (envelopes bs1)) by (rewrite <- app_assoc, env_app in IH1; apply Forall_app in IH1; apply IH1).
        destruct (sends_inv sk bs1 out en Nb F1 Sd Io) as (r & en0 & x' & l & y & _ & _ & Ix & G & Iy & Ey & _). fold h1 in Ix, G.
        destruct (gen_follows dbg sk r _ _ x' l y (stored_holds h1) G Iy) as (_ & _ & Pl). apply (written_small _ y) in Sm; [|exact Ey].
        assert (x = y). { symmetry. apply Same. rewrite Ey. pose proof (env_carries y Sm) as Cy. rewrite (sendable_norm y) in Cy; [exact Cy|split; assumption]. }
        subst y. rewrite Eh1 in *. assert (Ix2 : In x' (h1 ++ h2)) by (apply in_or_app; left; exact Ix).
        pose proof (hist_prefix dbg _ _ Hh) as Hh1. destruct (started_split _ x' IH3 Hh Ix2) as [In1|Out1].
        * left. destruct IH3 as [Ho|Ou]; [|destruct (out_in _ (Ou _ Ix2) In1)]. apply (ho_node _ _ _ _ _ h1 h2 sk r x' l x); assumption.
        * apply More. pose proof (started_prefix h1 h2 IH3 Hh) as St1.
          exact (answer_outside h1 sk r x' l x St1 Hh1 Ix Out1 G Iy).
  Qed.

  Lemma net_block bs b : network bs b -> forall bs1 b1 bs2, bs = bs1 ++ b1 :: bs2 -> network bs1 b1 /\ network (bs1 ++ [b1]) [].
  Proof.
    induction 1 as [|bs b Nw IH|bs b Nw IH|bs b en Nw IH Or]; intros bs1 b1 bs2 E; try (apply (IH _ _ _ E)).
    - destruct bs1; discriminate E.
    - destruct bs2 as [|c bs2] using rev_ind.
      + apply app_inj_tail in E as [-> ->]. split; [exact Nw|constructor; exact Nw].
      + rewrite app_comm_cons, app_assoc in E. apply app_inj_tail in E as [E _]. exact (IH _ _ _ E).
  Qed.
  Lemma net_fill bs b : network bs b -> forall b1 b2, b = b1 ++ b2 -> network bs b1.
  Proof.
    induction 1 as [|bs b Nw IH|bs b Nw IH|bs b en Nw IH Or]; intros b1 b2 E.
    - destruct b1; [constructor|discriminate E].
    - destruct b1; [constructor; exact Nw|discriminate E].
    - destruct b2 as [|o b2] using rev_ind; [rewrite app_nil_r in E; subst b1; constructor; exact Nw|].
      rewrite app_assoc in E. apply app_inj_tail in E as [E _]. exact (IH _ _ E).
    - destruct b2 as [|o b2] using rev_ind; [rewrite app_nil_r in E; subst b1; constructor; assumption|].
      rewrite app_assoc in E. apply app_inj_tail in E as [E _]. exact (IH _ _ E).
  Qed.
  Lemma net_prefix bs1 bs2 b : network (bs1 ++ bs2) b -> network bs1 [].
  Proof.
    intros Nw. destruct bs1 as [|c bs1] using rev_ind; [constructor|]. rewrite <- app_assoc in Nw. cbn [app] in Nw.
    apply (net_block _ _ Nw bs1 c bs2 eq_refl).
  Qed.
  (** what is known of a chain of complete blocks *)
  Lemma net_chain bs : network bs [] -> Forall SpecLedger.honest (envelopes bs) /\ Forall readable (envelopes bs)
    /\ started (recorded_by bs) /\ history dbg (recorded_by bs)
    /\ holds (ex_store (ledger_after dbg bs)) (stored (recorded_by bs))
    /\ (forall i, ex_get (ledger_after dbg bs) i = Ok (entry (stored (recorded_by bs)) i))
    /\ (forall i, (exists en, recorded (ledger_after dbg bs) (id_to_string i) en) <-> occupied (recorded_by bs) i).
  Proof.
    intros Nw. destruct (net_inv bs [] Nw) as (F1 & F2 & St). unfold SpecNet.recorded_by in *. rewrite env_empty in *.
    destruct (honest_run0 dbg _ F1) as (Hh & HL & D & W). pose proof (honest_holds _ W HL) as HH. rewrite D in HH.
    change (run dbg [] (envelopes bs)) with (ledger_after dbg bs) in *.
    repeat (split; [assumption|]). split.
    - intros i. rewrite (ex_get_entry _ _ W HL), D. reflexivity.
    - intros i. split.
      + intros (en & Re). destruct (HL _ _ Re) as (x & Ca & Ex). exists x. split.
        * apply (hist_stored dbg _ x Hh). rewrite <- D. apply (decoded_in _ _ W HL). exists en. rewrite <- Ex. auto.
        * apply id_to_string_inj. symmetry. exact Ex.
      + intros (x & Ix & Ex). apply (hist_stored dbg _ x Hh) in Ix. rewrite <- D in Ix. apply (decoded_in _ _ W HL) in Ix as (en & Ie & _).
        exists en. rewrite <- Ex. exact Ie.
  Qed.

  Hypothesis Re : el_mix_config el <> None -> reencrypting S.
  Hypothesis Shf : el_mix_config el <> None -> shuffles.

  Lemma honest_of h x : started h -> In x h -> inside x -> honest h.
  Proof. intros [Ho|Ou] Ix Ins; [exact Ho|]. destruct (out_in x (Ou x Ix) Ins). Qed.

  (** *** a dedicated node is never stopped *)
  Lemma no_crash bs sk r : network bs [] -> bs <> [] -> node sk -> dedicated dbg el sk bs ->
    exists out, after_commit dbg sk r (fold_left (commit dbg) bs genesis) = Ok out.
  Proof.
    intros Nw Nb Nd De. destruct (net_chain bs Nw) as (F1 & F2 & St & Hh & HH & Get & _).
    change (fold_left (commit dbg) bs genesis) with (ServiceFacts.node_of dbg bs). rewrite hook_block by exact Nb.
    change (run dbg [] (flat_map payloads bs)) with (ledger_after dbg bs).
    apply follow_block_total. intros n [en|] I; [|exists []; reflexivity].
    assert (Ie : In en (envelopes bs)).
    { clear -I Nb. unfold Block in *. unfold envelopes. apply in_flat_map. exists (nth (length bs - 1) ([] :: bs) []). split.
      - destruct (length bs - 1) as [|k] eqn:Lk; rewrite ?Lk in I; cbn [nth] in *; [destruct I|]. apply nth_In. lia.
      - apply in_flat_map. exists (Some en). split; [exact I|left; reflexivity]. }
    unfold follow_up. rewrite Forall_forall in F2. pose proof (F2 en Ie) as Rd. unfold readable in Rd.
    destruct (id_from_str (sv (en_id en))) as [i| |p] eqn:Ei; [|exists []; reflexivity|destruct (Rd p eq_refl)].
    rewrite Get. cbn [bind]. destruct (entry (stored (recorded_by bs)) i) as [x|] eqn:Ex; [|exists []; reflexivity].
    apply (hist_entry dbg _ _ _ Hh) in Ex as [Ix Ex].
    assert (G : exists l, generate_transactions dbg sk (r n) (ex_store (ledger_after dbg bs)) x = Ok l).
    { destruct (started_split _ x St Hh Ix) as [Ins|Out].
      - destruct (never_stopped S DH Op Sc law eg En dbg el T contests SU shv Re _ x sk (r n) (honest_of _ x St Ix Ins) Shf Ix Ins Nd) as (l & G).
        exists l. rewrite <- G. apply gen_same, (holds_same _ _ (stored (recorded_by bs))); [exact HH|apply stored_holds].
      - apply (follow_total dbg sk (r n) _ _ Hh HH x Ix). intros e' el' t Na (At & t0 & Fi & _). exfalso.
        pose proof At as At'. apply at_election_id in At'.
        apply (hist_at_id dbg _ _ _ Hh) in At as (z & Iz & Ez & Tz).
        assert (Oz : outside z).
        { destruct (started_split _ z St Hh Iz) as [Inz|Oz]; [|exact Oz]. exfalso.
          pose proof (inside_election eg dbg el T contests _ z el' (honest_of _ z St Iz Inz) Hh Iz Inz Tz) as ->.
          destruct Out as [_ Out]. rewrite Na in Out. congruence. }
        apply (De z el' Iz Tz Oz). apply first_in in Fi as [Fi1 Fi2]. exists t0. auto. }
    destruct G as (l & G). rewrite G. cbn [unwrapped bind].
    destruct (unsent_total (ledger_after dbg bs) l) as (sent & Se & _); [apply (reach_lwf dbg), run_reach; constructor|]. eauto.
  Qed.

  Lemma accepted_from b L x : In x (accepted dbg L (envelopes [b])) -> exists en, In (Some en) b /\ carries en x.
  Proof.
    intros I. assert (Ac : forall envs L, In x (accepted dbg L envs) -> exists en, In en envs /\ carries en x).
    { clear. induction envs as [|en envs IHe]; intros L Ix; [destruct Ix|]. cbn [accepted] in Ix.
      assert (Tl : forall L', In x (accepted dbg L' envs) -> exists en0, In en0 (en :: envs) /\ carries en0 x).
      { intros L' Ix'. destruct (IHe L' Ix') as (en0 & A & B). exists en0. split; [right; exact A|exact B]. }
      destruct (verify_and_store dbg L en) as [L'| |]; [|apply (Tl L Ix)|apply (Tl L Ix)].
      destruct (stx_from_bytes (en_data en)) as [z| |] eqn:D; [|apply (Tl L Ix)|apply (Tl L Ix)].
      destruct Ix as [->|Ix]; [|apply (Tl L' Ix)]. exists en. split; [left; reflexivity|exact D]. }
    destruct (Ac _ _ I) as (en & Ie & Ca). exists en. split; [|exact Ca]. unfold envelopes in Ie. cbn [flat_map] in Ie. rewrite app_nil_r in Ie.
    apply in_flat_map in Ie as ([en'|] & Io & Ie); [destruct Ie as [->|[]]; exact Io|destruct Ie].
  Qed.
  (** the block that recorded a transaction *)
  Lemma recorded_in bs x : network bs [] -> In x (recorded_by bs) ->
    exists bs1 b bs2 en, bs = bs1 ++ b :: bs2 /\ In (Some en) b /\ carries en x /\ In x (accepted dbg (ledger_after dbg bs1) (envelopes [b])).
  Proof.
    induction bs as [|b bs IH] using rev_ind; intros Nw I; [destruct I|]. rewrite by_app in I. apply in_app_or in I as [I|I].
    - destruct (IH (net_prefix _ _ _ Nw) I) as (bs1 & b1 & bs2 & en & -> & D). exists bs1, b1, (bs2 ++ [b]), en.
      split; [rewrite <- app_assoc; reflexivity|exact D].
    - destruct (accepted_from b _ x I) as (en & Ie & Ca). exists bs, b, [], en. auto.
  Qed.
  Lemma last_two {A} (l : list A) a b d : last (removelast (l ++ [a; b])) d = a.
  Proof. replace (l ++ [a; b]) with ((l ++ [a]) ++ [b]) by (rewrite <- app_assoc; reflexivity). rewrite removelast_last. apply last_last. Qed.

  (** *** on a settled chain everything of the election is answered *)
  Lemma settled_answers bs sk x : network bs [] -> node sk -> delivered dbg el sk bs -> settled dbg el bs ->
    In x (recorded_by bs) -> inside x -> answers dbg (recorded_by bs) sk x.
  Proof.
    intros Nw Nd De Se Ix Ins. pose proof (Se x Ix Ins) as Ix0.
    destruct bs as [|q bs _] using rev_ind; [destruct Ix|]. rewrite removelast_last in Ix0.
    destruct bs as [|p cs _] using rev_ind; [destruct Ix0|]. rewrite removelast_last in Ix0.
    assert (Nc : network cs []) by (rewrite <- app_assoc in Nw; exact (net_prefix _ _ _ Nw)).
    destruct (recorded_in cs x Nc Ix0) as (c1 & b & c2 & en & Ec & Ib & Ca & Ac).
    (* the block after the one that recorded [x] *)
    destruct (c2 ++ [p]) as [|nx c3] eqn:En2; [destruct c2; discriminate En2|].
    set (bs1 := c1 ++ [b; nx]).
    assert (Eb : exists d ds, (cs ++ [p]) ++ [q] = bs1 ++ d :: ds).
    { assert (X : (cs ++ [p]) ++ [q] = bs1 ++ (c3 ++ [q])).
      { rewrite Ec. unfold bs1. rewrite <- !app_assoc. cbn [app]. do 2 f_equal. rewrite app_comm_cons, <- En2, <- app_assoc. reflexivity. }
      rewrite X. destruct c3 as [|d ds]; cbn [app]; eauto. }
    destruct Eb as (d & ds & Eb). assert (N1 : bs1 <> []) by (unfold bs1; destruct c1; discriminate).
    destruct (De bs1 d ds Eb N1) as (out & (r & Af) & Dl).
    rewrite Eb in Nw. pose proof (net_prefix _ _ _ Nw) as Nw1.
    destruct (net_chain bs1 Nw1) as (F1 & _ & St1 & Hh1 & HH1 & Get1 & Oc1).
    destruct (net_chain _ Nw) as (_ & _ & St & Hh & _ & _ & Oc).
    assert (Ix1 : In x (recorded_by bs1)).
    { assert (E1 : bs1 = (c1 ++ [b]) ++ [nx]) by (unfold bs1; rewrite <- app_assoc; reflexivity). rewrite E1.
      rewrite (by_app dbg (c1 ++ [b]) [nx]). apply in_or_app. left. rewrite by_app. apply in_or_app. right. exact Ac. }
    pose proof (honest_of _ x St1 Ix1 Ins) as Ho1.
    apply In_nth_error in Ib as (n & Ib).
    destruct (never_stopped S DH Op Sc law eg En dbg el T contests SU shv Re _ x sk (r n) Ho1 Shf Ix1 Ins Nd) as (l & G).
    rewrite Eb. destruct (by_prefix dbg bs1 (d :: ds)) as (h2 & E2).
    exists (recorded_by bs1), h2, (r n), l. split; [exact E2|]. split; [exact Ix1|]. split; [exact G|].
    intros y Iy. destruct (occupied_dec (recorded_by bs1) (s_id y)) as [O|O]; [rewrite E2; apply occupied_mono, O|].
    apply Oc. rewrite Eb in Dl. apply Dl.
    - apply (sent_exactly dbg sk r bs1 out N1 Af). exists n, en, (s_id x), x, l, y.
      assert (Hen : SpecLedger.honest en).
      { rewrite Forall_forall in F1. apply F1. unfold bs1. rewrite env_app. apply in_or_app. right. unfold envelopes. cbn [flat_map].
        apply in_or_app. left. apply in_flat_map. exists (Some en). split; [exact (nth_error_In _ _ Ib)|left; reflexivity]. }
      split; [unfold bs1; rewrite last_two; exact Ib|]. split; [rewrite (Hen x Ca); apply id_from_to_string|].
      split; [rewrite Get1; f_equal; apply (hist_entry dbg _ _ _ Hh1); auto|].
      split; [rewrite <- G; apply gen_same, (holds_same _ _ (stored (recorded_by bs1))); [exact HH1|apply stored_holds]|].
      split; [exact Iy|]. split; [reflexivity|]. intros e' Re'. apply O, Oc1. exists e'. exact Re'.
    - destruct (gen_follows dbg sk (r n) _ _ x l y (stored_holds _) G Iy) as (_ & Id & _). unfold SpecRun.inside. rewrite Id. f_equal.
      exact (inside_names S DH Op Sc eg dbg el T contests SU shv _ x Ho1 Hh1 Ix1 Ins).
  Qed.

  (** *** rounds *)
  Variables (ns : list ed_secret) (bs : list (list (option Env))).
  Hypothesis Nns : forall sk, In sk ns -> node sk.
  Lemma round_parts new : rounds dbg el ns bs new -> forall n1 b n2, new = n1 ++ b :: n2 ->
    (forall sk, In sk ns -> exists out, sends dbg sk (bs ++ n1) out /\ forall en, In en out -> In (Some en) b)
    /\ (forall en, In (Some en) b ->
         (forall i, id_from_str (sv (en_id en)) = Ok i -> id_election i <> id_election e)
         \/ exists sk out, In sk ns /\ sends dbg sk (bs ++ n1) out /\ In en out /\ written en).
  Proof.
    induction 1 as [|new c Ro IH A B]; intros n1 b n2 E; [destruct n1; discriminate E|].
    destruct n2 as [|z n2 _] using rev_ind.
    - apply app_inj_tail in E as [-> ->]. auto.
    - rewrite app_comm_cons, app_assoc in E. apply app_inj_tail in E as [E _]. exact (IH _ _ _ E).
  Qed.
  Lemma rank_le x : rank x <= 7.
  Proof. unfold rank. destruct (s_tx x); lia. Qed.
  Lemma round_rank new : rounds dbg el ns bs new -> network (bs ++ new) [] -> bs <> [] ->
    forall k n1 b n2 x, length n1 <= k -> new = n1 ++ b :: n2 -> In x (accepted dbg (ledger_after dbg (bs ++ n1)) (envelopes [b])) -> inside x ->
    length n1 / 2 + 1 <= rank x.
  Proof.
    intros Ro Nw Nb. induction k as [k IH] using lt_wf_ind. intros n1 b n2 x Lk En1 Ix Ins.
    destruct (round_parts new Ro n1 b n2 En1) as [_ Only].
    assert (Nw1 : network (bs ++ n1) []) by (rewrite En1, app_assoc in Nw; exact (net_prefix _ _ _ Nw)).
    assert (Nw2 : network ((bs ++ n1) ++ [b]) []).
    { rewrite En1 in Nw. apply (net_prefix ((bs ++ n1) ++ [b]) n2 []). rewrite <- !app_assoc. exact Nw. }
    destruct (net_chain _ Nw1) as (F1 & _ & St1 & Hh1 & _). destruct (net_chain _ Nw2) as (F2 & _ & St2 & Hh2 & _).
    (* the envelope that brought [x] *)
    destruct (accepted_from b _ x Ix) as (en & Ie & Ca).
    assert (Hen : SpecLedger.honest en).
    { rewrite Forall_forall in F2. apply F2. rewrite env_app. apply in_or_app. right. unfold envelopes. cbn [flat_map]. rewrite app_nil_r.
      apply in_flat_map. exists (Some en). split; [exact Ie|left; reflexivity]. }
    destruct (Only en Ie) as [Oth|(sk & out & Isk & Sd & Io & Wr)].
    { destruct (Oth (s_id x)); [rewrite (Hen x Ca); apply id_from_to_string|exact Ins]. }
    assert (N1 : bs ++ n1 <> []) by (destruct bs; [contradiction|discriminate]).
    destruct (sends_inv sk _ out en N1 F1 Sd Io) as (r & en0 & x' & l & y & I0 & E0 & Ix' & G & Iy & Ey & Fr).
    destruct (gen_follows dbg sk r _ _ x' l y (stored_holds _) G Iy) as (_ & _ & Pl).
    assert (y = x).
    { pose proof (env_carries y (written_small _ y Wr Ey)) as Cy. rewrite (sendable_norm y) in Cy by (split; [exact (written_small _ y Wr Ey)|exact Pl]). unfold carries in *. congruence. }
    subst y.
    assert (Ins' : inside x').
    { destruct (started_split _ x' St1 Hh1 Ix') as [A|A]; [exact A|]. destruct (out_in x); [|exact Ins].
      exact (answer_outside _ sk r x' l x St1 Hh1 Ix' A G Iy). }
    pose proof (rank_answer S DH Op Sc eg dbg el T contests SU _ sk r x' l x (honest_of _ x' St1 Ix' Ins') Hh1 (Nns sk Isk) Ix' Ins' G Iy) as Rk.
    destruct n1 as [|b2 n1 _] using rev_ind; [cbn; lia|]. destruct n1 as [|b1 n1 _] using rev_ind; [cbn; lia|].
    assert (Hf : length ((n1 ++ [b1]) ++ [b2]) / 2 + 1 = length n1 / 2 + 2).
    { rewrite !app_length. cbn [length]. replace (length n1 + 1 + 1) with (length n1 + 1 * 2) by lia. rewrite Nat.div_add by lia. lia. }
    rewrite Hf. enough (length n1 / 2 + 1 <= rank x') by lia.
    rewrite !app_length in Lk. cbn [length] in Lk.
    (* [x'] was recorded by one of the last two blocks *)
    assert (E3 : bs ++ (n1 ++ [b1]) ++ [b2] = (bs ++ n1) ++ [b1; b2]) by (rewrite <- !app_assoc; reflexivity).
    rewrite E3, last_two in I0.
    assert (Early : fresh (recorded_by (bs ++ n1)) (s_id x')).
    { destruct (round_parts new Ro n1 b1 (b2 :: b :: n2)) as [_ Only1]; [rewrite En1, <- !app_assoc; reflexivity|].
      destruct (Only1 en0 I0) as [Oth|(sk0 & out0 & _ & Sd0 & Io0 & _)]; [destruct (Oth _ E0 Ins')|].
      assert (N0 : bs ++ n1 <> []) by (destruct bs; [contradiction|discriminate]).
      assert (F0 : Forall SpecLedger.honest (envelopes (bs ++ n1))) by (rewrite E3, env_app in F1; apply Forall_app in F1; apply F1).
      destruct (sends_inv sk0 _ out0 en0 N0 F0 Sd0 Io0) as (_ & _ & _ & _ & y0 & _ & _ & _ & _ & _ & -> & Fr0).
      cbn [into_env en_id] in E0. assert (Ok (E := IdError) (s_id y0) = Ok (s_id x')) by (rewrite <- E0; symmetry; apply id_from_to_string).
      injection H as <-. exact Fr0. }
    rewrite E3 in Ix'. replace ((bs ++ n1) ++ [b1; b2]) with (((bs ++ n1) ++ [b1]) ++ [b2]) in Ix' by (rewrite <- app_assoc; reflexivity).
    rewrite by_app in Ix'. apply in_app_or in Ix' as [Ix'|Ix'].
    - rewrite by_app in Ix'. apply in_app_or in Ix' as [Ix'|Ix']; [destruct (Early x' Ix' eq_refl)|].
      apply (IH (length n1) ltac:(lia) n1 b1 (b2 :: b :: n2) x'); [lia| |exact Ix'|exact Ins'].
      rewrite En1, <- !app_assoc. reflexivity.
    - assert (length (n1 ++ [b1]) / 2 + 1 <= rank x').
      { apply (IH (length (n1 ++ [b1])) ltac:(rewrite app_length; cbn; lia) (n1 ++ [b1]) b2 (b :: n2) x'); [lia| | |exact Ins'].
        - rewrite En1, <- !app_assoc. reflexivity.
        - rewrite app_assoc. exact Ix'. }
      rewrite app_length in H. cbn [length] in H. pose proof (Nat.div_le_mono (length n1) (length n1 + 1) 2 ltac:(lia) ltac:(lia)). lia.
  Qed.
  (** sixteen rounds are enough *)
  Lemma rounds_settle new : rounds dbg el ns bs new -> network (bs ++ new) [] -> bs <> [] -> 16 <= length new -> settled dbg el (bs ++ new).
  Proof.
    intros Ro Nw Nb Ln x Ix Ins.
    destruct new as [|q new _] using rev_ind; [cbn in Ln; lia|]. destruct new as [|p new _] using rev_ind; [cbn in Ln; lia|].
    rewrite !app_length in Ln. cbn [length] in Ln. rewrite !app_assoc in *. rewrite !removelast_last.
    assert (Hr : 8 <= length new / 2 + 1 ) by (pose proof (Nat.div_le_mono 14 (length new) 2 ltac:(lia) ltac:(lia)) as D; change (14 / 2) with 7 in D; lia).
    rewrite by_app in Ix. apply in_app_or in Ix as [Ix|Ix]; [rewrite by_app in Ix; apply in_app_or in Ix as [Ix|Ix]; [exact Ix|]|]; exfalso; pose proof (rank_le x) as Le.
    - pose proof (round_rank _ Ro ltac:(rewrite !app_assoc; exact Nw) Nb (length new) new p [q] x (le_n _) ltac:(rewrite <- app_assoc; reflexivity) Ix Ins). lia.
    - rewrite <- app_assoc in Ix. pose proof (round_rank _ Ro ltac:(rewrite !app_assoc; exact Nw) Nb (length (new ++ [p])) (new ++ [p]) q [] x (le_n _) eq_refl Ix Ins) as Rk.
      rewrite app_length in Rk. cbn [length] in Rk. pose proof (Nat.div_le_mono (length new) (length new + 1) 2 ltac:(lia) ltac:(lia)). lia.
  Qed.
  (** an answer of the election that is in a block is recorded *)
  Lemma included bs1 b sk out y : network bs1 b -> bs1 <> [] -> node sk -> sends dbg sk bs1 out -> In (into_env y) out -> written (into_env y) ->
    inside y -> In (Some (into_env y)) b -> occupied (recorded_by (bs1 ++ [b])) (s_id y).
  Proof.
    intros Nw Nb Nd Sd Io Wr Ins Ib. apply in_split in Ib as (ba & bb & Eb).
    pose proof (net_fill _ _ Nw ba (Some (into_env y) :: bb) Eb) as Nwa. destruct (net_inv _ _ Nwa) as (Fa & _ & Sta).
    destruct (honest_run0 dbg _ Fa) as (Hh & HL & D & W). pose proof (honest_holds _ W HL) as HH. rewrite D in HH.
    assert (F1 : Forall SpecLedger.honest (envelopes bs1)) by (rewrite env_app in Fa; apply Forall_app in Fa; apply Fa).
    destruct (sends_inv sk _ out _ Nb F1 Sd Io) as (r & en0 & x' & l & y' & _ & _ & Ix' & G & Iy & Ey & _).
    assert (Ei : s_id y = s_id y').
    { apply (f_equal (fun en => sv (en_id en))) in Ey. cbn [into_env en_id] in Ey. apply id_to_string_inj, Ey. }
    pose proof (written_small _ y' Wr Ey) as Sm. rewrite Ey in *. rewrite Ei. unfold SpecRun.inside in Ins. rewrite Ei in Ins. clear Ei.
    destruct (gen_follows dbg sk r _ _ x' l y' (stored_holds _) G Iy) as (_ & _ & Pl).
    pose proof (sendable_norm y' (conj Sm Pl)) as Nm. pose proof (env_carries y' Sm) as Ca. rewrite Nm in Ca.
    set (ha := recorded_by (bs1 ++ [ba])) in *. change (accepted dbg [] (envelopes (bs1 ++ [ba]))) with ha in *.
    destruct (by_prefix dbg bs1 [ba]) as (h2 & E2). fold ha in E2. rewrite E2 in Sta, Hh.
    pose proof (started_prefix _ _ Sta Hh) as St1. pose proof (hist_prefix dbg _ _ Hh) as Hh1.
    assert (Ins' : inside x').
    { destruct (started_split _ x' St1 Hh1 Ix') as [A|A]; [exact A|]. destruct (out_in y'); [|exact Ins].
      exact (answer_outside _ sk r x' l y' St1 Hh1 Ix' A G Iy). }
    assert (Ho : honest (recorded_by bs1 ++ h2)) by (apply (honest_of _ x' Sta); [apply in_or_app; left; exact Ix'|exact Ins']).
    assert (Eb2 : exists rest, recorded_by (bs1 ++ [b]) = ha ++ accepted dbg (run dbg [] (envelopes (bs1 ++ [ba]))) [into_env y'] ++ rest).
    { assert (Ee : envelopes (bs1 ++ [b]) = envelopes (bs1 ++ [ba]) ++ [into_env y'] ++ envelopes [bb]).
      { rewrite Eb, !env_app, <- app_assoc. f_equal. unfold envelopes. cbn [flat_map]. rewrite !app_nil_r, flat_map_app. reflexivity. }
      unfold SpecNet.recorded_by. rewrite Ee, accepted_app, (accepted_app dbg (envelopes [bb]) [into_env y']). eexists. reflexivity. }
    destruct Eb2 as (rest & Eb2). rewrite Eb2.
    destruct (occupied_dec ha (s_id y')) as [O|O]; [apply occupied_mono, O|].
    assert (Fr : fresh (recorded_by bs1 ++ h2) (s_id y')) by (rewrite <- E2; intros w Iw Ew; apply O; exists w; auto).
    pose proof (honest_history S DH Op Sc law eg dbg el T contests SU shv _ (ho_node _ _ _ _ _ _ h2 sk r x' l y' Ho Nd Ix' Ins' G Iy Fr)) as Hy.
    inversion Hy as [E|h0 x0 H0 F0 V0 E]; [destruct (recorded_by bs1 ++ h2); discriminate E|]. apply app_inj_tail in E as [-> ->].
    assert (V' : exists L', verify_and_store dbg (run dbg [] (envelopes (bs1 ++ [ba]))) (into_env y') = Ok L').
    { eexists. apply (post_ok dbg _ y' _ Sm). split; [|split; [|reflexivity]].
      - apply (free_slot _ (s_id y') W HL). rewrite D. rewrite E2. intros (w & Iw & Ew). apply (hist_stored dbg _ w Hh) in Iw. exact (Fr w Iw Ew).
      - rewrite Nm, <- V0. apply validate_same, (holds_same _ _ (stored ha)); [exact HH|rewrite E2; apply stored_holds]. }
    destruct V' as (L' & V'). exists y'. split; [|reflexivity]. apply in_or_app. right. apply in_or_app. left.
    cbn [accepted]. rewrite V'. unfold carries in Ca. rewrite Ca. left. reflexivity.
  Qed.
  Lemma rounds_deliver new : rounds dbg el ns bs new -> network (bs ++ new) [] -> bs <> [] ->
    forall sk, In sk ns -> delivered dbg el sk bs -> delivered dbg el sk (bs ++ new).
  Proof.
    intros Ro Nw Nb sk Isk De bs1 b bs2 E N1. destruct (net_chain _ Nw) as (_ & _ & _ & _ & _ & _ & Oc).
    destruct (le_lt_dec (length bs) (length bs1)) as [Le|Lt].
    - (* a round *)
      assert (X : exists n1, bs1 = bs ++ n1 /\ new = n1 ++ b :: bs2).
      { clear -E Le. revert bs1 E Le. induction bs as [|c cs IH]; intros bs1 E Le; [exists bs1; auto|].
        destruct bs1 as [|c1 bs1]; [cbn in Le; lia|]. cbn [app] in E. injection E as <- E. destruct (IH bs1 E) as (n1 & -> & En1); [cbn in Le; lia|].
        exists n1. auto. }
      destruct X as (n1 & -> & En1). destruct (round_parts new Ro n1 b bs2 En1) as [All Only].
      destruct (All sk Isk) as (out & Sd & Inc). exists out. split; [exact Sd|]. intros y Iy Ins. apply Oc.
      assert (Nwb : network (bs ++ n1) b).
      { rewrite En1, app_assoc in Nw. apply (net_block _ _ Nw (bs ++ n1) b bs2 eq_refl). }
      assert (Oc1 : occupied (recorded_by ((bs ++ n1) ++ [b])) (s_id y)).
      { destruct (Only _ (Inc _ Iy)) as [Oth|(sk' & out' & Isk' & Sd' & Io' & Wr)].
        - destruct (Oth (s_id y)); [apply id_from_to_string|exact Ins].
        - exact (included _ b sk' out' y Nwb N1 (Nns sk' Isk') Sd' Io' Wr Ins (Inc _ Iy)). }
      rewrite En1. destruct (by_prefix dbg ((bs ++ n1) ++ [b]) bs2) as (h2 & E2).
      replace (bs ++ n1 ++ b :: bs2) with (((bs ++ n1) ++ [b]) ++ bs2) by (rewrite <- !app_assoc; reflexivity). rewrite E2. apply occupied_mono, Oc1.
    - assert (X : exists ds, bs = bs1 ++ b :: ds).
      { clear -E Lt. revert bs1 E Lt. induction bs as [|c cs IH]; intros bs1 E Lt; [cbn in Lt; lia|].
        destruct bs1 as [|c1 bs1]; cbn [app] in E; injection E as -> E; [exists cs; reflexivity|].
        destruct (IH bs1 E) as (ds & ->); [cbn in Lt; lia|]. exists ds. reflexivity. }
      destruct X as (ds & Eb). destruct (De bs1 b ds Eb N1) as (out & Sd & Dl). exists out. split; [exact Sd|]. intros y Iy Ins. apply Oc.
      destruct (net_chain bs (net_prefix _ _ _ Nw)) as (_ & _ & _ & _ & _ & _ & Oc0). apply Dl in Iy; [|exact Ins]. apply Oc0 in Iy.
      destruct (by_prefix dbg bs new) as (h2 & ->). apply occupied_mono, Iy.
  Qed.
End Net.
