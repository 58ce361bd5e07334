(** * C91: elections with a mixnet. *)
From Verif Require Import Base BaseFacts Utf8 Cbor Ident BuildId IdentFacts Crypto Types Serde Store SpecStore StoreFacts Prost Validate ValidateFacts SpecHist HistFacts SpecValid ValidFacts ValidFacts2 ValidFacts3
  Encrypt Trustee Tasks SpecTasks TasksFacts TasksFacts2 TasksFacts3 SpecService SpecThreshold Lagrange SpecRun RunFacts Tally SpecTally Results SpecStuck Toy ToyT Scene Props_Vote Props_Run Props_Tally Props_Results.
From Coq Require Import Permutation ZifyBool ZifyNat ZifyN.
From Coq Require Strings.String.
Import String.StringSyntax.
Open Scope list_scope.

Section Stuck.
  Context {C : Crypto} {TC : TCrypto}.
  Variables (dbg : bool) (el : ElectionTx).
  Notation e := (el_id el).
  Lemma driven_history h : driven dbg el h -> history dbg h.
  Proof. induction 1; constructor; assumption. Qed.

  (** ** where the mixes, partial decryptions and decryptions made by nodes come from *)
  Lemma partials_are sk r t keys cs sh i l n xs y : partials_from sk r n t keys cs sh i l = Ok xs -> In y xs -> exists p, s_tx y = XPartial p /\ pd_election p = i.
  Proof.
    intros E I. apply partials_from_in in E. destruct (Forall2_in_l _ _ _ _ E I) as ([[[up ix] c] row] & _ & k & ds & _ & T).
    apply tsign_tx in T as [T _]. unfold partial_tx in T. eexists. split; [exact T|reflexivity].
  Qed.
  Lemma produced_are sk r s el' t c m xs y : produce_partials sk r s el' t c m = Ok xs -> In y xs -> exists p, s_tx y = XPartial p /\ pd_election p = el_id el'.
  Proof.
    unfold produce_partials. intros E I. apply bind_ok in E as (? & _ & E). apply bind_ok in E as (? & _ & E). apply bind_ok in E as (? & _ & E).
    destruct m as [m|]; [|apply bind_ok in E as (? & _ & E)]; exact (partials_are _ _ _ _ _ _ _ _ _ _ _ E I).
  Qed.
  Definition source_of (s : Store) (x y : STx) : Prop :=
    match s_tx y with
    | XMix m => mx_prev m = None
    | XPartial p => exists el', el_id el' = pd_election p
        /\ ((exists ve, s_tx x = XVotingEnd ve /\ t_election s (ve_election ve) = Ok el' /\ el_mix_config el' = None)
            \/ exists m, s_tx x = XMix m /\ t_election s (mx_election m) = Ok el' /\ @u8_add TaskError dbg (mx_index m) x01 = Ok (el_threshold el'))
    | XDecryption d => exists p el', s_tx x = XPartial p /\ t_election s (pd_election p) = Ok el' /\ dc_election d = el_id el'
    | XElection _ => False
    | _ => True
    end.
  Lemma sources sk r s x l y : generate_transactions dbg sk r s x = Ok l -> In y l -> source_of s x y.
  Proof.
    unfold generate_transactions, source_of. intros G I.
    assert (One : forall t, one sk t = Ok l -> s_tx y = t) by (intros t E; exact (one_tx _ _ _ _ E I)).
    destruct (s_tx x) as [t|t|t|t|t|t|t|t|t|t] eqn:Tx; try (injection G as <-; destruct I).
    - unfold process_election in G. destruct (trustee_from_election t (node_key sk)); [|injection G as <-; destruct I]. rewrite (One _ G). exact Logic.I.
    - unfold process_keygen_commitment in G. apply bind_ok in G as (el' & _ & G). destruct (trustee_from_election el' (node_key sk)); [|injection G as <-; destruct I].
      apply bind_ok in G as (cs & _ & G). destruct (Nat.eqb _ _); [|injection G as <-; destruct I]. apply bind_ok in G as (sh & _ & G). rewrite (One _ G). exact Logic.I.
    - unfold process_keygen_share in G. apply bind_ok in G as (el' & _ & G). destruct (trustee_from_election el' (node_key sk)); [|injection G as <-; destruct I].
      apply bind_ok in G as (cs & _ & G). destruct (negb _); [injection G as <-; destruct I|]. apply bind_ok in G as (cs' & _ & G). apply bind_ok in G as (sh & _ & G).
      apply bind_ok in G as (kp & _ & G). rewrite (One _ G). exact Logic.I.
    - unfold process_keygen_public_key in G. apply bind_ok in G as (el' & _ & G). destruct (pk_eqb _ _); [|injection G as <-; destruct I].
      apply bind_ok in G as (pks & _ & G). destruct (Nat.eqb _ _); [|injection G as <-; destruct I]. rewrite (One _ G). exact Logic.I.
    - unfold process_voting_end in G. apply bind_ok in G as (el' & Te & G). destruct (trustee_from_election el' (node_key sk)) as [tr|]; [|injection G as <-; destruct I].
      destruct (el_mix_config el') as [mc|] eqn:Mc.
      + destruct (Byte.eqb _ _); [|injection G as <-; destruct I]. apply bind_ok in G as (k & _ & G). apply bind_ok in G as (vs & _ & G).
        destruct (first_mixes_in sk r el' tr (ek_key k) _ _ _ _ G I) as (n & c & votes & mp & _ & _ & T). apply tsign_tx in T as [T _]. rewrite T. reflexivity.
      + destruct (el_contests el'); [injection G as <-; destruct I|]. destruct (produced_are _ _ _ _ _ _ _ _ _ G I) as (p & T & Ep). rewrite T.
        exists el'. split; [auto|]. left. exists t. auto.
    - unfold process_mix in G. apply bind_ok in G as (el' & Te & G). destruct (trustee_from_election el' (node_key sk)) as [tr|]; [|injection G as <-; destruct I].
      destruct (el_mix_config el') as [mc|]; [|injection G as <-; destruct I]. apply bind_ok in G as (nx & Nx & G). destruct (Byte.eqb (el_threshold el') nx) eqn:Th.
      + apply Byte.byte_dec_bl in Th. destruct (produced_are _ _ _ _ _ _ _ _ _ G I) as (p & T & Ep). rewrite T. exists el'. split; [auto|]. right. exists t. rewrite Th. auto.
      + apply bind_ok in G as (tn & _ & G). destruct (Byte.eqb (tr_index tr) tn); [|injection G as <-; destruct I]. apply bind_ok in G as (k & _ & G). apply bind_ok in G as (mp & _ & G).
        rewrite (One _ G). reflexivity.
    - unfold process_partial_decryption in G. apply bind_ok in G as (el' & Te & G). destruct (trustee_from_election el' (node_key sk)) as [tr|]; [|injection G as <-; destruct I].
      apply bind_ok in G as (ps & _ & G). destruct (Nat.leb _ _); [|injection G as <-; destruct I]. apply bind_ok in G as (parts & _ & G). apply bind_ok in G as (cts & _ & G).
      apply bind_ok in G as (pks & _ & G). apply bind_ok in G as (sels & _ & G). rewrite (One _ G). exists t, el'. auto.
  Qed.

  (** ** With a threshold of two or more, no mix after the first is recorded, and nothing is decrypted *)
  Definition first_only (x : STx) : Prop :=
    match s_tx x with
    | XElection el' => el_id el' = e -> el' = el
    | XMix m => mx_election m = e -> mx_index m = x00
    | XPartial p => pd_election p <> e
    | XDecryption d => dc_election d <> e
    | _ => True end.
  Theorem C91_mixnet_stuck : el_mix_config el <> None -> el_threshold el <> x01 -> forall h, driven dbg el h -> forall x, In x h -> first_only x.
  Proof.
    intros Mc Th h D. induction D as [|h x D IH Nc Ne Fr V|h1 h2 sk r x l y D IH Ix G Iy Fr V]; intros w Iw; [destruct Iw| |];
      apply in_app_or in Iw as [Iw|[<-|[]]]; try (apply IH; exact Iw).
    - unfold first_only, closing in *. destruct (s_tx x) as [t|t|t|t|t|t|t|t|t|t]; try exact I; [apply Ne; reflexivity|intros E; destruct (Nc E)|exact Nc|exact Nc].
    - pose proof (driven_history _ D) as Hh. pose proof (hist_prefix _ _ _ Hh) as Hh1. pose proof (sources _ _ _ _ _ _ G Iy) as So. unfold source_of in So. unfold first_only.
      assert (At : forall i el', t_election (ms_store (ms_from h1)) i = Ok el' -> el_id el' = e -> i = e /\ el' = el).
      { intros i el' Te Ei. apply (t_election_iff _ _ (stored_holds h1)) in Te. pose proof (at_election_id _ _ _ Te) as Q. split; [congruence|].
        destruct Te as (z & Iz & _ & Tz). apply (hist_stored dbg _ _ Hh1) in Iz. specialize (IH z (in_or_app _ _ _ (or_introl Iz))). unfold first_only in IH. rewrite Tz in IH. exact (IH Ei). }
      assert (Xx : first_only x) by (apply IH, in_or_app; left; exact Ix). unfold first_only in Xx.
      destruct (s_tx y) as [t|t|t|t|t|t|t|t|t|t] eqn:Ty; try exact I.
      + destruct So.
      + intros _. apply (validate_iff _ _ (stored_holds (h1 ++ h2))) in V as (_ & _ & V). rewrite Ty in V. destruct V as (_ & _ & _ & _ & ins & k & [S|S] & _).
        * apply S.
        * destruct S as (p & pm & E & _). congruence.
      + intros Ee. destruct So as (el' & Ei & [(ve & Tx & Te & Nm)|(m & Tx & Te & Ad)]); rewrite Ee in Ei; destruct (At _ _ Te Ei) as [Em ->]; [congruence|].
        rewrite Tx in Xx. rewrite (Xx Em) in Ad. assert (R : @u8_add TaskError dbg x00 x01 = Ok x01) by (destruct dbg; reflexivity). congruence.
      + intros Ee. destruct So as (p & el' & Tx & Te & Ei). rewrite Ee in Ei. destruct (At _ _ Te (eq_sym Ei)) as [Em _]. rewrite Tx in Xx. exact (Xx Em).
  Qed.
  Lemma stuck_none h c : el_mix_config el <> None -> el_threshold el <> x01 -> driven dbg el h -> decryptions_of el h c = [].
  Proof.
    intros Mc Th D. pose proof (C91_mixnet_stuck Mc Th h D) as H. unfold decryptions_of. clear -H. induction h as [|x h IH]; [reflexivity|]. cbn [flat_map].
    rewrite IH by (intros y I; apply H; right; exact I). rewrite app_nil_r. specialize (H x (or_introl eq_refl)). unfold first_only in H.
    destruct (s_tx x) as [t|t|t|t|t|t|t|t|t|t]; try reflexivity. destruct (id_eqb (dc_election t) e) eqn:E; [|reflexivity]. apply id_eqb_eq in E. contradiction.
  Qed.
  (** there is nothing to count, and the command that prints the winner stops *)
  Theorem C91_nothing_counted : el_mix_config el <> None -> el_threshold el <> x01 -> forall h, driven dbg el h -> at_id h e (XElection el) ->
    get_multiple (ms_store (ms_from h)) e TDecryption = Ok []
    /\ forall order, fair order -> winner order (ms_store (ms_from h)) e = Panic PIndex.
  Proof.
    intros Mc Th h D At. pose proof (driven_history _ D) as Hh.
    assert (Slot : forall el' i, at_id h i (XElection el') -> i = slot0 i TElection).
    { intros el' i (x & I & Ei & T). destruct (hist_accepted dbg h x Hh I) as (h1 & h2 & _ & _ & _ & V). apply (validate_iff _ _ (stored_holds h1)) in V as (_ & _ & V).
      rewrite T in V. destruct V as (V & _). unfold s_id in Ei. rewrite T in Ei. cbn [tx_id] in Ei. congruence. }
    assert (G : get_multiple (ms_store (ms_from h)) e TDecryption = Ok []).
    { rewrite (holds_multiple _ _ _ _ (stored_holds h)). f_equal. destruct (listed (stored h) e TDecryption) as [|x l] eqn:E; [reflexivity|exfalso].
      assert (I : In x (listed (stored h) e TDecryption)) by (rewrite E; left; reflexivity). apply listed_in in I as (I & Ie & It). apply (hist_stored dbg _ _ Hh) in I.
      pose proof (C91_mixnet_stuck Mc Th h D x I) as F. unfold first_only in F. pose proof (hist_typed dbg h x Hh I) as Ty. rewrite It in Ty. unfold s_type in Ty.
      destruct (s_tx x) as [t|t|t|t|t|t|t|t|t|d] eqn:T; try discriminate Ty. apply F.
      destruct (hist_accepted dbg h x Hh I) as (h1 & h2 & -> & Hh1 & _ & V). apply (validate_iff _ _ (stored_holds h1)) in V as (_ & _ & V).
      rewrite T in V. destruct V as (el' & _ & _ & _ & (z & Iz & Ez & Tz) & Id & _). apply (hist_stored dbg _ _ Hh1) in Iz.
      assert (At' : at_id (h1 ++ x :: h2) (dc_election d) (XElection el')) by (exists z; split; [apply in_or_app; left; exact Iz|auto]).
      rewrite (Slot _ _ At'), (Slot _ _ At). unfold s_id in Ie. rewrite T in Ie. cbn [tx_id] in Ie. rewrite Id in Ie. cbn [decryption_build_id id_election] in Ie.
      unfold slot0. rewrite <- Ie. reflexivity. }
    split; [exact G|]. intros order F. exact (no_winner order _ _ F G).
  Qed.
  Lemma plain_driven h : history dbg h -> (forall x, In x h -> ~ closing el x) ->
    (forall x el', In x h -> s_tx x = XElection el' -> el_id el' = e -> el' = el) -> driven dbg el h.
  Proof.
    induction 1 as [|h x Hh IH Fr V]; intros Nc Ne; [constructor|]. apply dr_other; [|apply Nc, in_or_app; right; left; reflexivity| |exact Fr|exact V].
    - apply IH; [intros y I; apply Nc, in_or_app; left; exact I|intros y el' I; apply (Ne y el'), in_or_app; left; exact I].
    - intros el'. apply (Ne x el'), in_or_app. right. left. reflexivity.
  Qed.
End Stuck.

(** ** A single mix is enough when the threshold is one *)
Section Single.
  Context {C : Crypto} {TC : TCrypto} {K : Fld} {M : Mdl} (S : threshold_scheme K M).
  Context {R : Type} (eg : EGPublicKey -> R -> bytes -> Ciphertext * R).
  Theorem C91_single_mix_partial : forall dbg el T contests, laws S eg el -> set_up el T contests -> el_mix_config el <> None -> el_threshold el = x01 ->
    forall (r : Rnd) h k, honest eg dbg el T contests h -> ended el h -> at_id h (slot0 (el_id el) TEncryptionKey) (XEncryptionKey k) ->
    exists h', honest eg dbg el T contests (h ++ h') /\ forall c cast, Forall2 (encrypted eg (ek_key k)) (ballots el h c) cast ->
      Permutation (map dc_vote (decryptions_of el (h ++ h') c)) cast.
  Proof. intros dbg el T contests L SU _ _. exact (C74_can_finish S eg dbg el T contests L SU). Qed.
End Single.

(** ** Two trustees, threshold two, two voters: the first mix is recorded, and that was it *)
Section Cases.
  #[local] Existing Instance Toy.
  #[local] Existing Instance ToyT.
  Definition elM : ElectionTx := election (Some mixcfg).
  Definition before : list STx := setup (Some mixcfg) ++ voting ++ [votingend].
  Definition rndM : Rnd := mk_rnd (fun _ => arr_rep x00 12) (fun _ _ => []) (fun _ => []).
  Definition quiet (b : list STx) : bool :=
    forallb (fun x => match s_tx x with XElection _ | XMix _ | XPartial _ | XDecryption _ => false | _ => true end) (tl b).
  (** a voting end is answered by one mix of two rows, which is accepted *)
  Definition answered (b : list STx) (ve : STx) (el : ElectionTx) (m : res TaskError (list STx)) : bool :=
    match m with
    | Ok [y] => match s_tx y with XMix m => Nat.eqb (length (mx_out m)) 2 && id_eqb (mx_election m) (el_id el) | _ => false end
                && checks true [] (b ++ [y]) ms_empty && quiet b && Nat.eqb (length (votes_of el (b ++ [y]))) 2
                && id_eqb (s_id ve) (slot0 (el_id el) TVotingEnd)
    | _ => false end.
  Lemma answered_ok : answered before votingend elM (generate_transactions true (key_of x0a) rndM (ms_store (ms_from before)) votingend) = true.
  Proof. vm_compute. reflexivity. Qed.
  Lemma stuck_scene x0 b ve el sk r : answered (x0 :: b) ve el (generate_transactions true sk r (ms_store (ms_from (x0 :: b))) ve) = true ->
    s_tx x0 = XElection el -> In ve (x0 :: b) -> el_mix_config el <> None -> el_threshold el <> x01 ->
    exists h, driven true el h /\ at_id h (el_id el) (XElection el) /\ ended el h /\ length (votes_of el h) = 2
    /\ (exists x m, In x h /\ s_tx x = XMix m /\ mx_election m = el_id el /\ length (mx_out m) = 2)
    /\ forall h' c, driven true el (h ++ h') -> decryptions_of el (h ++ h') c = [].
  Proof.
    intros A T0 Iv Mc Th. destruct (generate_transactions true sk r (ms_store (ms_from (x0 :: b))) ve) as [l|er|k] eqn:G; try discriminate A.
    destruct l as [|y [|]]; try discriminate A. unfold answered in A. apply andb_prop in A as [A Ve]. apply andb_prop in A as [A Vs]. apply andb_prop in A as [A Qu]. apply andb_prop in A as [A Ch].
    destruct (s_tx y) as [| | | | | | |m| |] eqn:Ty; try discriminate A. apply andb_prop in A as [Lm Em]. apply Nat.eqb_eq in Lm, Vs. apply id_eqb_eq in Em, Ve.
    apply run_history in Ch. exists ((x0 :: b) ++ [y]).
    assert (Q : forall x, In x b -> match s_tx x with XElection _ | XMix _ | XPartial _ | XDecryption _ => false | _ => true end = true) by exact (proj1 (forallb_forall _ _) Qu).
    apply hist_snoc_inv in Ch as (Hb & Fr & V).
    split.
    { rewrite <- (app_nil_r (x0 :: b)). apply (dr_node true el (x0 :: b) [] sk r ve [y] y); try rewrite app_nil_r; try assumption; [|left; reflexivity].
      apply plain_driven; [exact Hb| |].
      - intros x [<-|I]; unfold closing; [rewrite T0; auto|]. apply Q in I. destruct (s_tx x); (discriminate I || auto).
      - intros x el' [<-|I] T _; [congruence|]. apply Q in I. rewrite T in I. discriminate I. }
    split; [exists x0; split; [left; reflexivity|]; split; [unfold s_id; rewrite T0; reflexivity|exact T0]|].
    split; [exists ve; split; [apply in_or_app; left; exact Iv|exact Ve]|]. split; [exact Vs|].
    split; [exists y, m; split; [apply in_or_app; right; left; reflexivity|auto]|].
    intros h' c D. exact (stuck_none true el _ c Mc Th D).
  Qed.
  Theorem C91_finish_refuted : exists el h, driven true el h /\ at_id h (el_id el) (XElection el) /\ ended el h /\ length (votes_of el h) = 2
    /\ (exists x m, In x h /\ s_tx x = XMix m /\ mx_election m = el_id el /\ length (mx_out m) = 2)
    /\ forall h' c, driven true el (h ++ h') -> decryptions_of el (h ++ h') c = [].
  Proof.
    exists elM. apply (stuck_scene (sgn x01 (XElection elM)) (tl before) votingend elM (key_of x0a) rndM).
    - exact answered_ok.
    - reflexivity.
    - apply (in_or_app (setup (Some mixcfg)) (voting ++ [votingend])). right. right. right. left. reflexivity.
    - discriminate.
    - discriminate.
  Qed.
End Cases.
Print Assumptions C91_mixnet_stuck.
Print Assumptions C91_nothing_counted.
Print Assumptions C91_single_mix_partial.
Print Assumptions C91_finish_refuted.
