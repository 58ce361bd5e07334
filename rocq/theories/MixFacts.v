(** * MixFacts: chains and plaintexts over histories. *)
From Verif Require Import Base BaseFacts Ident BuildId IdentFacts Crypto Types Serde Store SpecStore StoreFacts
  Validate ValidateFacts SpecValid ValidFacts ValidFacts2 ValidFacts3 SpecHist HistFacts SpecMix.
From Coq Require Import Sorting.Permutation Sorting.Sorted ZifyBool ZifyNat ZifyN.
Open Scope list_scope.

Section Facts.
  Context {C : Crypto}.

  Lemma at_id_mono p q i t : at_id p i t -> at_id (p ++ q) i t.
  Proof. intros (x & A & B). exists x. split; [apply in_or_app; left; exact A|exact B]. Qed.
  Lemma at_id_stored dbg l i t : history dbg l -> (at_id (stored l) i t <-> at_id l i t).
  Proof.
    intros H. split; intros (x & A & B); exists x; (split; [|exact B]); apply (hist_stored dbg l x H); exact A.
  Qed.
  Lemma chain_mono p q m m0 : chain p m m0 -> chain (p ++ q) m m0.
  Proof.
    induction 1; [apply chain_first; auto using at_id_mono|].
    eapply chain_next; eauto using at_id_mono.
  Qed.
  Lemma chain_start l m m0 : chain l m m0 ->
    mx_election m = mx_election m0 /\ mx_contest m = mx_contest m0 /\ mx_batch m = mx_batch m0
    /\ mx_votes m = mx_votes m0 /\ mx_prev m0 = None /\ mx_index m0 = x00 /\ mx_trustee m0 = x01
    /\ at_id l (mx_id m0) (XMix m0).
  Proof. induction 1; [auto 10|]. intuition congruence. Qed.
  Lemma history_at_id_fun dbg l i t u : history dbg l -> at_id l i t -> at_id l i u -> t = u.
  Proof.
    intros H (x & A1 & A2 & A3) (y & B1 & B2 & B3).
    pose proof (hist_unique dbg l x y H A1 B1) as E. subst. rewrite E; auto.
  Qed.
  Lemma strong_map {A B} (R : B -> B -> Prop) (f : A -> B) l :
    StronglySorted (fun x y => R (f x) (f y)) l -> StronglySorted R (map f l).
  Proof.
    induction 1 as [|a l _ IH F]; cbn [map]; constructor; [exact IH|].
    apply Forall_forall. intros b Hb. apply in_map_iff in Hb as (x & <- & Hx).
    rewrite Forall_forall in F. auto.
  Qed.
  Lemma listed_all L e : ascending L -> all_votes L e (map s_id (listed L e TVote)).
  Proof.
    intros A. split; [apply strong_map, listed_asc, A|].
    intros i. rewrite in_map_iff. split.
    - intros (y & E & Hy). apply listed_in in Hy as (H1 & H2 & H3). exists y. unfold in_range. auto.
    - intros (y & H1 & (H2 & H3) & H4). exists y. split; [exact H4|]. apply listed_in. auto.
  Qed.
  Lemma range_votes L e vs : range_is L e TVote XVote vs ->
    Forall2 (fun i v => at_id L i (XVote v)) (map s_id (listed L e TVote)) vs.
  Proof.
    unfold range_is. assert (G : forall x, In x (listed L e TVote) -> In x L).
    { intros x Hx. apply listed_in in Hx. tauto. }
    revert G. generalize (listed L e TVote) as l. intros l. revert vs.
    induction l as [|x l IH]; intros [|v vs] G E; try discriminate; [constructor|].
    cbn [map] in E |- *. injection E as E1 E2. constructor.
    - exists x. split; [apply G; left; reflexivity|auto].
    - apply IH; [|exact E2]. intros y Hy. apply G. right. exact Hy.
  Qed.
  Lemma u8v_one b : u8v b = 1%N -> b = x01.
  Proof. intros H. apply u8v_inj. exact H. Qed.

  (** the accepted mix, unfolded *)
  Lemma mix_accepted dbg s L x m : holds s L -> s_tx x = XMix m -> validate dbg s x = Ok tt -> ok_mix dbg L m.
  Proof. intros H Hx V. apply (validate_iff s L H) in V as (_ & _ & V). rewrite Hx in V. exact V. Qed.

  Lemma mix_chain dbg l : history dbg l -> forall m, at_id l (mx_id m) (XMix m) -> exists m0, chain l m m0.
  Proof.
    induction 1 as [|l x Hl IH F V]; intros m Hm; [destruct Hm as (? & [] & _)|].
    pose proof Hm as (y & Hy & Ey & Ty). apply in_app_iff in Hy as [Hy|[->|[]]].
    { destruct (IH m) as (m0 & Hc); [exists y; auto|]. exists m0. apply chain_mono, Hc. }
    apply (mix_accepted dbg _ _ y m (stored_holds l) Ty) in V as (Eid & _ & Htr & _ & ins & k & Src & _).
    destruct Src as [(P & I0 & _)|(p & pm & P & Hpm & Hi & E1 & E2 & E3 & E4 & _)].
    - exists m. apply chain_first; auto. apply u8v_one. rewrite I0 in Htr. cbn in Htr.
      destruct Htr as [T|(_ & _ & T)]; [exact T|discriminate].
    - apply (at_id_stored dbg l) in Hpm; [|exact Hl]. destruct Hpm as (z & Hz & Ez & Tz).
      assert (Ez' : p = mx_id pm) by (rewrite <- Ez; unfold s_id; rewrite Tz; reflexivity).
      destruct (IH pm) as (m0 & Hc); [exists z; subst p; auto|].
      pose proof (chain_start _ _ _ Hc) as (S1 & S2 & S3 & S4 & S5 & S6 & S7 & w & Hw & Ew & Tw).
      destruct Hi as [Hi|(_ & _ & Hi)].
      + exists m0. eapply chain_next; eauto using chain_mono.
        * exists z. split; [apply in_or_app; left; exact Hz|auto].
        * destruct Htr as [T|(_ & T1 & T2)]; [|rewrite T1, T2; reflexivity].
          rewrite N.mod_small; [exact T|]. pose proof (u8v_lt (mx_trustee m)). lia.
      + exfalso. apply (F w Hw). rewrite Ew. rewrite Ey, Eid.
        assert (T : mx_trustee m = x01).
        { rewrite Hi in Htr. destruct Htr as [T|(_ & _ & T)]; [apply u8v_one; exact T|discriminate]. }
        destruct (hist_accepted dbg l w Hl Hw) as (a & b & _ & _ & _ & Vw).
        apply (mix_accepted dbg _ _ w m0 (stored_holds a) Tw) in Vw as (Eid0 & _).
        rewrite Eid0. rewrite E1, E2, E3, S1, S2, S3, Hi, T, S6, S7. reflexivity.
  Qed.

  Lemma first_mix_votes dbg l m : history dbg l -> at_id l (mx_id m) (XMix m) -> mx_prev m = None ->
    exists p x q, l = p ++ x :: q /\ s_tx x = XMix m /\ all_votes p (mx_election m) (mx_votes m).
  Proof.
    intros Hl (x & Hx & Ex & Tx) P. destruct (hist_accepted dbg l x Hl Hx) as (p & q & E & Hp & _ & V).
    exists p, x, q. split; [exact E|]. split; [exact Tx|].
    apply (mix_accepted dbg _ _ x m (stored_holds p) Tx) in V as (_ & _ & _ & _ & ins & k & Src & _).
    destruct Src as [(_ & _ & vs & _ & Ev & _)|(p' & pm & P' & _)]; [|congruence].
    rewrite Ev. destruct (listed_all (stored p) (mx_election m) (stored_asc p)) as [A B].
    split; [exact A|]. intros i. rewrite B. split; intros (y & Hy & R); exists y; split; try exact R;
      apply (hist_stored dbg p y Hp); exact Hy.
  Qed.

  Lemma mix_plaintexts dbg l M (D : EGPublicKey -> Ciphertext -> M) :
    shuffle_sound D -> history dbg l -> forall m, at_id l (mx_id m) (XMix m) ->
    exists k vs, at_id l (slot0 (mx_election m) TEncryptionKey) (XEncryptionKey k)
      /\ Forall2 (fun i v => at_id l i (XVote v)) (mx_votes m) vs
      /\ Permutation (map (map (D (ek_key k))) (mx_out m)) (map (map (D (ek_key k))) (rows_of (mx_contest m) vs)).
  Proof.
    intros Snd. induction 1 as [|l x Hl IH F V]; intros m Hm; [destruct Hm as (? & [] & _)|].
    assert (Mono : forall (P : list STx -> Identifier -> VoteTx -> Prop) ids vs,
      (forall i v, P l i v -> P (l ++ [x]) i v) -> Forall2 (P l) ids vs -> Forall2 (P (l ++ [x])) ids vs).
    { intros P ids vs G Q. induction Q; constructor; auto. }
    pose proof Hm as (y & Hy & Ey & Ty). apply in_app_iff in Hy as [Hy|[->|[]]].
    { destruct (IH m) as (k & vs & A & B & G); [exists y; auto|]. exists k, vs.
      split; [apply at_id_mono, A|]. split; [|exact G].
      apply (Mono (fun l i v => at_id l i (XVote v))); [intros; apply at_id_mono; assumption|exact B]. }
    apply (mix_accepted dbg _ _ y m (stored_holds l) Ty) in V as (_ & _ & _ & _ & ins & k & Src & Hk & Hv).
    apply Snd in Hv. apply (at_id_stored dbg l) in Hk; [|exact Hl].
    destruct Src as [(_ & _ & vs & R & Ev & ->)|(p & pm & P & Hpm & _ & E1 & E2 & E3 & E4 & ->)].
    - exists k, vs. split; [apply at_id_mono, Hk|]. split; [|symmetry; exact Hv].
      apply range_votes in R. rewrite <- Ev in R.
      apply (Mono (fun l i v => at_id l i (XVote v))); [intros; apply at_id_mono; assumption|].
      revert R. clear -Hl. induction 1 as [|i v ids vs A R IH]; constructor; [|exact IH].
      apply (at_id_stored dbg l); assumption.
    - apply (at_id_stored dbg l) in Hpm; [|exact Hl]. destruct Hpm as (z & Hz & Ez & Tz).
      assert (Ez' : p = mx_id pm) by (rewrite <- Ez; unfold s_id; rewrite Tz; reflexivity).
      destruct (IH pm) as (k' & vs & A & B & G); [exists z; subst p; auto|].
      rewrite <- E1 in A. rewrite <- E4 in B. rewrite <- E2 in G.
      pose proof (history_at_id_fun dbg l _ _ _ Hl A Hk) as K. injection K as ->.
      exists k, vs. split; [apply at_id_mono, Hk|]. split.
      + apply (Mono (fun l i v => at_id l i (XVote v))); [intros; apply at_id_mono; assumption|exact B].
      + rewrite <- Hv. exact G.
  Qed.

  (** after the voting-end slot is taken no vote of that election is recorded *)
  Lemma no_vote_after_end dbg p q e :
    history dbg (p ++ q) -> occupied p (slot0 e TVotingEnd) ->
    forall y, In y q -> ~ in_range e TVote y.
  Proof.
    intros H (z & Hz & Ez) y Hy (R1 & R2). apply in_split in Hy as (a & b & ->).
    rewrite app_assoc in H. apply hist_at in H as (Hp & _ & V).
    pose proof V as V'. apply (validate_iff _ _ (stored_holds (p ++ a))) in V' as (Ty & _ & V').
    rewrite R2 in Ty. unfold s_type in Ty. destruct (s_tx y) as [t|t|t|t|t|t|t|t|t|t] eqn:Tx; try discriminate Ty.
    destruct V' as (el & _ & (I1 & _) & _ & _ & V' & _). apply V'. exists z. split.
    - apply (hist_stored dbg _ _ Hp). apply in_or_app. left. exact Hz.
    - rewrite Ez. unfold slot0. f_equal. rewrite <- R1. unfold s_id. rewrite Tx. exact I1.
  Qed.
End Facts.
