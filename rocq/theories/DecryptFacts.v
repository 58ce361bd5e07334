(** * DecryptFacts: slots, quorum, recorded voting end. *)
From Verif Require Import Base BaseFacts Ident BuildId IdentFacts Crypto Types Serde Store SpecStore StoreFacts
  Validate ValidateFacts SpecValid ValidFacts ValidFacts2 ValidFacts3 SpecHist HistFacts SpecMix MixFacts SpecDecrypt.
From Coq Require Import ZifyBool ZifyNat ZifyN.
Open Scope list_scope.

Definition row_type (t : TxType) : Prop := t = TVote \/ t = TMix.

Lemma slot_unique_inj up c i t up' c' i' t' :
  row_type (id_type up) -> row_type (id_type up') ->
  slot_unique up c i t = slot_unique up' c' i' t' ->
  c = c' /\ id_type up = id_type up' /\ t = t'
  /\ (id_type up = TMix -> i = i' /\ firstn 8 (skipn 4 (arr_l (id_unique up))) = firstn 8 (skipn 4 (arr_l (id_unique up'))))
  /\ (id_type up = TVote -> firstn 10 (arr_l (id_unique up)) = firstn 10 (arr_l (id_unique up'))).
Proof.
  intros A B E. unfold slot_unique in E. apply (arr_app_inj (n:=4)) in E as [E1 E]. apply (arr_app_inj (n:=1)) in E as [E2 E].
  apply to_be_inj in E1. apply arr1_inj in E2.
  destruct A as [A|A], B as [B|B]; rewrite A, B in *; try discriminate E2; cbn [tt_u8] in *.
  - apply (arr_app_inj (n:=10)) in E as [E3 E4]. apply arr1_inj in E4. apply (f_equal arr_l) in E3. cbn in E3.
    repeat split; auto; discriminate.
  - apply (arr_app_inj (n:=8)) in E as [E3 E]. apply (arr_app_inj (n:=2)) in E as [E4 E5]. apply arr1_inj in E5.
    apply to_be_inj in E4. apply (f_equal arr_l) in E3. cbn [arr_slice arr_l] in E3. repeat split; auto; discriminate.
Qed.

Section Facts.
  Context {C : Crypto}.

  Lemma row_at_type L el up idx c row : row_at L el up idx c row -> row_type (id_type up).
  Proof. intros [(A & _)|(A & _)]; [left|right]; exact A. Qed.

  Lemma partial_accepted dbg s L x t : holds s L -> s_tx x = XPartial t -> validate dbg s x = Ok tt -> ok_partial L t.
  Proof. intros H Hx V. apply (validate_iff s L H) in V as (_ & _ & V). rewrite Hx in V. exact V. Qed.
  Lemma decryption_accepted dbg s L x t : holds s L -> s_tx x = XDecryption t -> validate dbg s x = Ok tt ->
    ok_decryption Prost.sel_decode L t.
  Proof. intros H Hx V. apply (validate_iff s L H) in V as (_ & _ & V). rewrite Hx in V. exact V. Qed.

  (** a recorded transaction in the voting-end slot is a VotingEnd *)
  Lemma end_recorded dbg l e : history dbg l -> occupied l (slot0 e TVotingEnd) ->
    exists y t, In y l /\ s_tx y = XVotingEnd t /\ s_id y = slot0 e TVotingEnd.
  Proof.
    intros H (y & Hy & E). pose proof (hist_typed dbg l y H Hy) as T. rewrite E in T. cbn in T.
    unfold s_type in T. destruct (s_tx y) eqn:X; try discriminate T. eauto.
  Qed.
  Lemma occupied_stored dbg l i : history dbg l -> (occupied (stored l) i <-> occupied l i).
  Proof.
    intros H. split; intros (x & A & B); exists x; (split; [|exact B]); apply (hist_stored dbg l x H); exact A.
  Qed.
  Lemma occupied_mono p q i : occupied p i -> occupied (p ++ q) i.
  Proof. intros (x & A & B). exists x. split; [apply in_or_app; left; exact A|exact B]. Qed.

  (** every recorded partial decryption came after the voting end *)
  Lemma partial_after_end dbg p x q t : history dbg (p ++ x :: q) -> s_tx x = XPartial t ->
    occupied p (slot0 (pd_election t) TVotingEnd).
  Proof.
    intros H Tx. apply hist_at in H as (Hp & _ & V).
    apply (partial_accepted dbg _ _ x t (stored_holds p) Tx) in V as (el & row & pk & _ & _ & _ & V & _).
    exact (proj1 (occupied_stored dbg p _ Hp) V).
  Qed.

  (** what a partial decryption recorded in the slot of a decryption is about *)
  Lemma slot_partial dbg l t i p : history dbg l ->
    row_type (id_type (dc_upstream t)) -> at_id l (partial_slot t i) (XPartial p) ->
    id_election (pd_election p) = id_election (dc_election t) /\ pd_contest p = dc_contest t /\ pd_trustee p = i
    /\ id_type (pd_upstream p) = id_type (dc_upstream t)
    /\ (id_type (dc_upstream t) = TMix -> pd_index p = dc_index t /\
          firstn 8 (skipn 4 (arr_l (id_unique (pd_upstream p)))) = firstn 8 (skipn 4 (arr_l (id_unique (dc_upstream t)))))
    /\ (id_type (dc_upstream t) = TVote ->
          firstn 10 (arr_l (id_unique (pd_upstream p))) = firstn 10 (arr_l (id_unique (dc_upstream t)))).
  Proof.
    intros H R (x & Hx & Ex & Tx). destruct (hist_accepted dbg l x H Hx) as (a & b & _ & _ & _ & V).
    apply (partial_accepted dbg _ _ x p (stored_holds a) Tx) in V as (el & row & pk & _ & _ & V & _ & W & _).
    apply row_at_type in W. unfold s_id in Ex. rewrite Tx in Ex. cbn [tx_id] in Ex.
    rewrite V in Ex. unfold partial_slot, partial_build_id, id_new in Ex.
    pose proof (f_equal id_election Ex) as E1. pose proof (f_equal id_unique Ex) as E2. cbn [id_election id_unique] in E1, E2.
    apply slot_unique_inj in E2 as (Q1 & Q2 & Q3 & Q4 & Q5); auto.
    rewrite <- Q2. auto 10.
  Qed.

  Lemma shares_for_in i pks parts trs l : shares_for i pks parts trs l ->
    forall j, In j (map (fun p => fst (fst p)) l) -> exists p, In p parts /\ pd_trustee p = j.
  Proof.
    induction 1 as [|tr trs l _ _ IH|tr trs l p k sh Hp _ _ _ IH]; intros j Hj; [destruct Hj|auto|].
    destruct Hj as [<-|Hj]; [|auto]. apply first_in in Hp as [Hp E]. apply in_rev in Hp. cbn [fst]. eauto.
  Qed.
  Lemma Forall2_in_r {A B} (P : A -> B -> Prop) l m b : Forall2 P l m -> In b m -> exists a, In a l /\ P a b.
  Proof.
    induction 1 as [|x y l m Hxy _ IH]; intros Hb; [destruct Hb|]. destruct Hb as [<-|Hb].
    - exists x. split; [left; reflexivity|exact Hxy].
    - destruct (IH Hb) as (a & A1 & A2). exists a. split; [right; exact A1|exact A2].
  Qed.
  Lemma Forall2_in_l {A B} (P : A -> B -> Prop) l m a : Forall2 P l m -> In a l -> exists b, In b m /\ P a b.
  Proof.
    induction 1 as [|x y l m Hxy _ IH]; intros Hb; [destruct Hb|]. destruct Hb as [<-|Hb].
    - exists y. split; [left; reflexivity|exact Hxy].
    - destruct (IH Hb) as (b & A1 & A2). exists b. split; [right; exact A1|exact A2].
  Qed.

  Lemma quorum_of_decryption dbg l x t : threshold_quorum -> history dbg l -> s_tx x = XDecryption t ->
    validate dbg (ms_store (ms_from l)) x = Ok tt -> dc_vote t <> [] ->
    exists el is, at_id l (dc_election t) (XElection el) /\ NoDup is
      /\ (u8v (el_threshold el) <= N.of_nat (length is))%N
      /\ forall i, In i is -> In i (dc_trustees t)
           /\ exists p, at_id l (partial_slot t i) (XPartial p) /\ pd_trustee p = i.
  Proof.
    intros Q H Tx V Ne.
    apply (decryption_accepted dbg _ _ x t (stored_holds l) Tx) in V
      as (el & row & pks & parts & Hel & _ & Hrow & _ & Hparts & _ & Hlen & Hd).
    destruct (dc_vote t) as [|sel sels] eqn:Ev; [congruence|]. destruct row as [|ct row]; [discriminate Hlen|].
    destruct (Hd 0 ct sel eq_refl eq_refl) as (shl & m & Hsh & Hm & _).
    destruct (Q _ _ _ _ Hm) as (is & N & Hk & Hi).
    exists el, is. split; [exact (proj1 (at_id_stored dbg l _ _ H) Hel)|]. split; [exact N|]. split; [exact Hk|].
    intros i Hin. apply Hi in Hin. destruct (shares_for_in _ _ _ _ _ Hsh i Hin) as (p & Hp & Ep).
    destruct (Forall2_in_r _ _ _ _ Hparts Hp) as (j & Hj & _ & Hat).
    apply (proj1 (at_id_stored dbg l _ _ H)) in Hat.
    assert (pd_trustee p = j).
    { apply (slot_partial dbg l t j p H); [eapply row_at_type; exact Hrow|exact Hat]. }
    subst j. subst i. split; [exact Hj|]. exists p. auto.
  Qed.

  Lemma decryption_after_end dbg p x q t el : history dbg (p ++ x :: q) -> s_tx x = XDecryption t ->
    at_id p (dc_election t) (XElection el) -> el_threshold el <> x00 ->
    occupied p (slot0 (dc_election t) TVotingEnd).
  Proof.
    intros H Tx Hel Hk. apply hist_at in H as (Hp & _ & V).
    apply (decryption_accepted dbg _ _ x t (stored_holds p) Tx) in V
      as (el' & row & pks & parts & Hel' & _ & Hrow & _ & Hparts & Hn & _).
    apply (proj1 (at_id_stored dbg p _ _ Hp)) in Hel'.
    pose proof (history_at_id_fun dbg p _ _ _ Hp Hel Hel') as E. injection E as <-.
    destruct (dc_trustees t) as [|i is].
    { exfalso. apply Hk. apply u8v_inj. cbn in Hn |- *. lia. }
    inversion Hparts as [|? pt ? ? (_ & Hat) _]; subst. apply (proj1 (at_id_stored dbg p _ _ Hp)) in Hat.
    pose proof (slot_partial dbg p t i pt Hp (row_at_type _ _ _ _ _ _ Hrow) Hat) as (Ee & _).
    destruct Hat as (y & Hy & _ & Ty). apply in_split in Hy as (a & b & ->).
    apply (partial_after_end dbg a y b pt) in Hp; [|exact Ty].
    unfold slot0 in *. rewrite <- Ee. apply occupied_mono, Hp.
  Qed.
End Facts.
