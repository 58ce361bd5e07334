(** * TasksFacts2: generated mixes against validation. *)
From Verif Require Import Base BaseFacts Utf8 Cbor Ident BuildId IdentFacts Crypto Types Serde Store SpecStore StoreFacts
  Prost Validate ValidateFacts SpecValid ValidFacts ValidFacts2 ValidFacts3 SpecHist HistFacts Trustee Tasks SpecTasks
  TasksFacts.
Open Scope list_scope.

Section Push.
  Context {A : Type}.
  Implicit Types (m : list (u32 * list A)) (c : u32).
  Fixpoint got c m : list A :=
    match m with [] => [] | (c', l) :: m' => if u_eqb c c' then l else got c m' end.
  Lemma u_eqb_refl {k} (a : uN k) : u_eqb a a = true.
  Proof. apply u_eqb_eq. reflexivity. Qed.
  Lemma got_push c x m c' : got c' (push c x m) = if u_eqb c' c then got c m ++ [x] else got c' m.
  Proof.
    induction m as [|[k l] m IH]; cbn [push got].
    - reflexivity.
    - destruct (u_eqb c k) eqn:E; cbn [got].
      + apply u_eqb_eq in E. subst k. destruct (u_eqb c' c); reflexivity.
      + rewrite IH. destruct (u_eqb c' c) eqn:F; [|reflexivity]. apply u_eqb_eq in F. subst c'. rewrite E. reflexivity.
  Qed.
  Lemma push_in c x m k : In k (map fst (push c x m)) <-> k = c \/ In k (map fst m).
  Proof.
    induction m as [|[k' l] m IH]; cbn [push map fst In]; [intuition congruence|].
    destruct (u_eqb c k') eqn:E; cbn [map fst In].
    - apply u_eqb_eq in E. subst k'. intuition congruence.
    - rewrite IH. intuition congruence.
  Qed.
  Lemma push_nodup c x m : NoDup (map fst m) -> NoDup (map fst (push c x m)).
  Proof.
    induction m as [|[k' l] m IH]; cbn [push map fst]; intros N; [repeat constructor; intros []|].
    destruct (u_eqb c k') eqn:E; cbn [map fst]; [exact N|]. inversion N as [|? ? N1 N2]; subst.
    constructor; [|auto]. rewrite push_in. intros [<-|X]; [|auto]. rewrite u_eqb_refl in E. discriminate.
  Qed.
  Lemma got_in m c l : NoDup (map fst m) -> In (c, l) m -> got c m = l.
  Proof.
    induction m as [|[k l'] m IH]; [intros _ []|]. cbn [map fst]. intros N [E|I].
    - injection E as <- <-. cbn [got]. rewrite u_eqb_refl. reflexivity.
    - inversion N as [|? ? N1 N2]; subst. cbn [got]. destruct (u_eqb c k) eqn:E; [|auto].
      apply u_eqb_eq in E. subst k. exfalso. apply N1. apply in_map_iff. exists (c, l). auto.
  Qed.
End Push.

Section Facts.
  Context {C : Crypto} {TC : TCrypto}.

  (** the entries of contest [c], in order *)
  Definition in_contest (c : u32) (v : VoteTx) : list (Identifier * list Ciphertext) :=
    map (fun ev => (vt_id v, ev_selections ev)) (filter (fun ev => u_eqb c (ev_contest ev)) (vt_votes v)).
  Lemma contest_votes_inv vs : forall m,
    let m' := fold_left (fun m v =>
      fold_left (fun m ev => push (ev_contest ev) (vt_id v, ev_selections ev) m) (vt_votes v) m) vs m in
    (NoDup (map fst m) -> NoDup (map fst m'))
    /\ (forall c, got c m' = got c m ++ flat_map (in_contest c) vs)
    /\ (forall c, In c (map fst m') <-> In c (map fst m) \/ exists v ev, In v vs /\ In ev (vt_votes v) /\ ev_contest ev = c).
  Proof.
    induction vs as [|v vs IH]; intros m; cbn [fold_left flat_map].
    - repeat split; intros; try rewrite app_nil_r; auto. destruct H as [H|(? & ? & [] & _)]. exact H.
    - set (m1 := fold_left _ (vt_votes v) m). specialize (IH m1). cbn zeta in IH. destruct IH as (I1 & I2 & I3).
      assert (K : (NoDup (map fst m) -> NoDup (map fst m1)) /\ (forall c, got c m1 = got c m ++ in_contest c v)
        /\ forall c, In c (map fst m1) <-> In c (map fst m) \/ exists ev, In ev (vt_votes v) /\ ev_contest ev = c).
      { unfold m1, in_contest. generalize (vt_votes v) as l. clear. intros l. revert m.
        induction l as [|ev l IH]; intros m; cbn [fold_left filter map].
        - repeat split; intros; try rewrite app_nil_r; auto. destruct H as [H|(? & [] & _)]. exact H.
        - destruct (IH (push (ev_contest ev) (vt_id v, ev_selections ev) m)) as (J1 & J2 & J3). split; [|split].
          + intros N. apply J1, push_nodup, N.
          + intros c. rewrite J2, got_push. destruct (u_eqb c (ev_contest ev)) eqn:E; [|reflexivity].
            apply u_eqb_eq in E. subst c. rewrite <- app_assoc. reflexivity.
          + intros c. rewrite J3, push_in. split.
            * intros [[->|X]|(e & X & Y)]; eauto 6 using in_eq, in_cons.
            * intros [X|(e & [<-|X] & Y)]; eauto 6. }
      destruct K as (K1 & K2 & K3). split; [auto|]. split.
      + intros c. rewrite I2, K2, app_assoc. reflexivity.
      + intros c. rewrite I3, K3. split.
        * intros [[X|(e & X & Y)]|(w & e & X & Y)]; eauto 8 using in_eq, in_cons.
        * intros [X|(w & e & [<-|X] & Y)]; eauto 8.
  Qed.
  Lemma contest_votes_spec vs c l : In (c, l) (contest_votes vs) -> l = flat_map (in_contest c) vs.
  Proof.
    intros I. destruct (contest_votes_inv vs []) as (A & B & _). specialize (A (NoDup_nil _)).
    rewrite <- (got_in _ _ _ A I). apply (B c).
  Qed.
  Lemma contest_votes_keys vs c : In c (map fst (contest_votes vs)) <->
    exists v ev, In v vs /\ In ev (vt_votes v) /\ ev_contest ev = c.
  Proof. destruct (contest_votes_inv vs []) as (_ & _ & B). unfold contest_votes. rewrite (B c). split; [intros [[]|X]; exact X|auto]. Qed.

  Lemma in_contest_rows c v : map snd (in_contest c v) = cast_rows c (vt_votes v).
  Proof.
    unfold in_contest. rewrite map_map. cbn [snd]. induction (vt_votes v) as [|ev l IH]; [reflexivity|].
    cbn [filter cast_rows]. unfold u_eqb at 1. rewrite N.eqb_sym. destruct (N.eqb _ _); cbn [map]; rewrite IH; reflexivity.
  Qed.
  Lemma flat_rows' c vs : map snd (flat_map (in_contest c) vs) = rows_of c vs.
  Proof.
    induction vs as [|v vs IH]; [reflexivity|]. cbn [flat_map rows_of]. rewrite map_app, in_contest_rows, IH. reflexivity.
  Qed.
  Definition entries (c : u32) (v : VoteTx) : nat := List.length (filter (fun ev => u_eqb c (ev_contest ev)) (vt_votes v)).
  Lemma in_contest_ids c v : map fst (in_contest c v) = repeat (vt_id v) (entries c v).
  Proof.
    unfold in_contest, entries. rewrite map_map. cbn [fst]. induction (filter _ _) as [|ev l IH]; [reflexivity|].
    cbn [map length repeat]. rewrite IH. reflexivity.
  Qed.
  Lemma flat_ids c vs : map fst (flat_map (in_contest c) vs) = flat_map (fun v => repeat (vt_id v) (entries c v)) vs.
  Proof.
    induction vs as [|v vs IH]; [reflexivity|]. cbn [flat_map]. rewrite map_app, in_contest_ids, IH. reflexivity.
  Qed.
  Lemma repeats_once {A B} (f : A -> B) (n : A -> nat) vs : NoDup (map f vs) ->
    (flat_map (fun v => repeat (f v) (n v)) vs = map f vs <-> forall v, In v vs -> n v = 1).
  Proof.
    induction vs as [|v vs IH]; intros N; [split; [intros _ v []|reflexivity]|]. cbn [map flat_map] in *.
    inversion N as [|? ? N1 N2]; subst. specialize (IH N2). split.
    - intros E. assert (V : n v = 1).
      { destruct (n v) as [|[|k]] eqn:K; [|reflexivity|].
        - cbn [repeat app] in E. exfalso. assert (F : forall w, In w vs -> f v <> f w).
          { intros w I X. apply N1. rewrite X. apply in_map, I. }
          assert (Q : In (f v) (flat_map (fun v => repeat (f v) (n v)) vs)) by (rewrite E; left; reflexivity).
          apply in_flat_map in Q as (w & I & Q). apply repeat_spec in Q. exact (F w I Q).
        - exfalso. cbn [repeat app] in E. injection E as E. apply N1. rewrite <- E. left. reflexivity. }
      rewrite V in E. cbn [repeat app] in E. injection E as E. intros w [<-|I]; [exact V|]. apply IH; assumption.
    - intros V. rewrite (V v) by (left; reflexivity). cbn [repeat app]. f_equal. apply IH. intros w I. apply V. right. exact I.
  Qed.
  Lemma entries_once c v : entries c v = 1 <-> votes_once c v.
  Proof.
    unfold entries, votes_once. assert (P : forall e, u_eqb c (ev_contest e) = true <-> ev_contest e = c).
    { intros e. rewrite u_eqb_eq. split; congruence. }
    split.
    - induction (vt_votes v) as [|ev l IH]; cbn [filter length]; [discriminate|].
      destruct (u_eqb c (ev_contest ev)) eqn:E.
      + cbn [length]. intros X. injection X as X. exists [], ev, l. split; [reflexivity|]. split; [apply P, E|].
        intros e I Y. cbn [app] in I. apply P in Y. assert (Z : In e (filter (fun ev => u_eqb c (ev_contest ev)) l)) by (apply filter_In; auto).
        destruct (filter _ l); [exact Z|discriminate X].
      + intros X. destruct (IH X) as (pre & e & post & -> & A & B). exists (ev :: pre), e, post. split; [reflexivity|].
        split; [exact A|]. cbn [app]. intros e' [<-|I]; [|auto]. intros Y. apply P in Y. congruence.
    - intros (pre & e & post & -> & A & B). rewrite filter_app. cbn [filter].
      assert (Z : forall l, (forall e, In e l -> ev_contest e <> c) -> filter (fun ev => u_eqb c (ev_contest ev)) l = []).
      { induction l as [|a l IH]; [reflexivity|]. intros F. cbn [filter]. destruct (u_eqb c (ev_contest a)) eqn:Q.
        - apply P in Q. exfalso. apply (F a); [left; reflexivity|exact Q].
        - apply IH. intros e' I. apply F. right. exact I. }
      rewrite (Z pre), (Z post) by (intros; apply B, in_or_app; auto). apply P in A. rewrite A. reflexivity.
  Qed.

  Section Mix.
    Variables (dbg : bool) (sk : ed_secret) (r : Rnd).
    Hypothesis law : ed_sign_verifies.
    Hypothesis shv : shuffle_verifies.
    Variables (s : Store) (L : list STx).
    Hypothesis H : holds s L.

    Lemma t_enckey_iff e k : t_enckey s e = Ok k <-> at_id L (slot0 e TEncryptionKey) (XEncryptionKey k).
    Proof.
      unfold t_enckey. rewrite (holds_get _ _ _ H). cbn [lift bind]. rewrite at_id_entry by exact H.
      change (enckey_build_id e) with (slot0 e TEncryptionKey).
      destruct (entry L (slot0 e TEncryptionKey)) as [x|]; cbn [or_panic bind].
      - unfold into_typed. split.
        + intros E. apply or_panic_ok in E. exists x. split; [reflexivity|]. destruct (s_tx x); cbn in E; congruence.
        + intros (y & E & F). injection E as <-. rewrite F. reflexivity.
      - split; [discriminate|]. intros (y & E & _). discriminate.
    Qed.

    Lemma first_mixes_in el t key l : forall n xs x, first_mixes sk r n el t key l = Ok xs -> In x xs ->
      exists n' c votes mp, In (c, votes) l
        /\ mix (r_mix r n') (map snd votes) key (tr_index t) x00 c (u_of 4 0) = Some mp
        /\ tsign sk (XMix (mk_mix (mix_build_id (el_id el) c (u_of 4 0) x00 (tr_index t)) (el_id el) None
                         (tr_index t) (tr_public_key t) x00 c (u_of 4 0) (map fst votes) (fst mp) (snd mp))) = Ok x.
    Proof.
      induction l as [|[c votes] l IH]; intros n xs x E I; cbn [first_mixes] in E; [injection E as <-; destruct I|].
      apply bind_ok in E as (mp & A & E). apply ok_or_ok in A. apply bind_ok in E as (y & B & E).
      apply bind_ok in E as (ys & D & E). injection E as <-. destruct I as [<-|I].
      - exists n, c, votes, mp. auto using in_eq.
      - destruct (IH _ _ _ D I) as (n' & c' & v' & mp' & X & Y & Z). exists n', c', v', mp'. auto using in_cons.
    Qed.
    Lemma first_mixes_all el t key l : forall n xs, first_mixes sk r n el t key l = Ok xs ->
      forall c, In c (map fst l) -> exists x m, In x xs /\ s_tx x = XMix m /\ mx_contest m = c.
    Proof.
      induction l as [|[c votes] l IH]; intros n xs E c' I; cbn [first_mixes] in E; [destruct I|].
      apply bind_ok in E as (mp & A & E). apply bind_ok in E as (y & B & E).
      apply bind_ok in E as (ys & D & E). injection E as <-. destruct I as [<-|I].
      - exists y. unfold tsign in B. apply map_err_ok, sign_ok in B as [-> _]. eexists. split; [left; reflexivity|].
        split; [reflexivity|]. reflexivity.
      - destruct (IH _ _ D _ I) as (x & m & X & Y). exists x, m. split; [right; exact X|exact Y].
    Qed.

    Lemma range_votes_ids e vs : range_is L e TVote XVote vs -> map s_id (listed L e TVote) = map vt_id vs /\ NoDup (map vt_id vs).
    Proof.
      intros R. assert (E : map s_id (listed L e TVote) = map vt_id vs).
      { unfold s_id. rewrite <- (map_map s_tx tx_id), R, map_map. reflexivity. }
      split; [exact E|]. rewrite <- E. apply asc_nodup, listed_asc, (h_asc _ _ H).
    Qed.

    Lemma end_mix ve l x el mc : process_voting_end sk r s ve = Ok l -> In x l ->
      at_id L (ve_election ve) (XElection el) -> el_mix_config el = Some mc ->
      exists m vs, s_tx x = XMix m /\ mx_election m = ve_election ve /\ mx_index m = x00 /\ mx_public m = node_key sk
        /\ range_is L (ve_election ve) TVote XVote vs
        /\ (validate dbg s x = Ok tt <-> forall v, In v vs -> votes_once (mx_contest m) v).
    Proof.
      intros P I A M. unfold process_voting_end in P. apply bind_ok in P as (el' & A' & P).
      apply (t_election_iff s L H) in A'. assert (E1 : XElection el' = XElection el) by (apply (at_id_fun s L H _ _ _ A' A)).
      injection E1 as ->. pose proof (at_election_id L _ _ A) as Ei. clear A'.
      destruct (trustee_from_election el (node_key sk)) as [t|] eqn:T; [|injection P as <-; destruct I]. rewrite M in P.
      destruct (Byte.eqb (tr_index t) x01) eqn:X; [|injection P as <-; destruct I]. apply byte_eqb_eq in X.
      apply bind_ok in P as (k & K & P). apply t_enckey_iff in K. rewrite Ei in K.
      apply bind_ok in P as (vs & R & P). apply (t_multiple_iff s L H _ _ _ _ _ as_vote_iff) in R. rewrite Ei in R.
      destruct (first_mixes_in _ _ _ _ _ _ _ P I) as (n & c & votes & mp & I' & Mx & S).
      apply contest_votes_spec in I'. subst votes. destruct (range_votes_ids _ _ R) as [Rid Nd].
      pose proof (full_acts _ _ _ T) as (B & D & E).
      unfold mix in Mx. destruct mp as [outs proof]. pose proof Mx as Mv. apply shv in Mv as [Ml Mv]. cbn [fst snd] in S.
      assert (Q : exists m, s_tx x = XMix m /\ m = mk_mix (mix_build_id (el_id el) c (u_of 4 0) x00 (tr_index t)) (el_id el) None
                         (tr_index t) (tr_public_key t) x00 c (u_of 4 0) (map fst (flat_map (in_contest c) vs)) outs proof).
      { eexists. split; [|reflexivity]. unfold tsign in S. apply map_err_ok, sign_ok in S as [-> _]. reflexivity. }
      destruct Q as (m & Q & Em). exists m, vs. split; [exact Q|].
      rewrite Em. cbn [mx_election mx_index mx_public mx_contest]. rewrite Ei. split; [reflexivity|]. split; [reflexivity|].
      split; [exact D|]. split; [exact R|]. split.
      - intros V. apply (validate_iff s L H) in V as (_ & _ & V). rewrite Q in V. cbn [ok_tx] in V.
        destruct V as (_ & _ & _ & _ & ins & k' & [F|F] & _).
        + destruct F as (_ & _ & vs' & R' & F & _). rewrite Em in R', F. cbn [mx_election mx_votes] in R', F.
          rewrite Ei in R', F. rewrite Rid, flat_ids in F. pose proof (proj1 (repeats_once vt_id (entries c) vs Nd) F) as G.
          intros v Iv. apply entries_once. auto.
        + destruct F as (p & pm & F & _). rewrite Em in F. discriminate F.
      - intros V. assert (F : map fst (flat_map (in_contest c) vs) = map vt_id vs).
        { rewrite flat_ids. apply (repeats_once vt_id (entries c) vs Nd). intros v Iv. apply entries_once. auto. }
        eapply (tsign_valid dbg sk law s L H); [exact S|reflexivity|]. cbn [ok_tx]. unfold ok_mix.
        cbn [mx_id mx_election mx_contest mx_batch mx_index mx_trustee mx_public mx_out mx_votes mx_proof]. rewrite Ei.
        split; [reflexivity|]. split; [exists el, mc; rewrite D; auto|].
        split; [left; rewrite X; reflexivity|]. split; [rewrite Ml, !map_length; reflexivity|].
        exists (rows_of c vs), k. split; [|split; [exact K|]].
        + left. unfold first_source. cbn [mx_prev mx_index mx_election mx_votes mx_contest]. split; [reflexivity|]. split; [reflexivity|].
          exists vs. rewrite Rid, F. auto.
        + rewrite <- flat_rows'. exact Mv.
    Qed.
    (** every contest with a recorded selection list gets a mix *)
    Lemma end_mix_all ve l el mc t : process_voting_end sk r s ve = Ok l ->
      at_id L (ve_election ve) (XElection el) -> el_mix_config el = Some mc ->
      trustee_from_election el (node_key sk) = Some t -> tr_index t = x01 ->
      forall x v ev, In x (listed L (ve_election ve) TVote) -> s_tx x = XVote v -> In ev (vt_votes v) ->
      exists y m, In y l /\ s_tx y = XMix m /\ mx_contest m = ev_contest ev.
    Proof.
      intros P A M T X x v ev Hx Tx He. unfold process_voting_end in P. apply bind_ok in P as (el' & A' & P).
      apply (t_election_iff s L H) in A'. assert (E1 : XElection el' = XElection el) by (apply (at_id_fun s L H _ _ _ A' A)).
      injection E1 as ->. pose proof (at_election_id L _ _ A) as Ei. clear A'. rewrite T, M, X in P.
      change (Byte.eqb x01 x01) with true in P. cbv iota in P. apply bind_ok in P as (k & K & P).
      apply bind_ok in P as (vs & R & P). apply (t_multiple_iff s L H _ _ _ _ _ as_vote_iff) in R. rewrite Ei in R.
      apply (first_mixes_all _ _ _ _ _ _ P). apply contest_votes_keys. exists v, ev. split; [|auto].
      assert (Q : In (XVote v) (map XVote vs)) by (rewrite <- R, <- Tx; apply in_map, Hx).
      apply in_map_iff in Q as (w & Q & Iw). injection Q as ->. exact Iw.
    Qed.

    (** a mix generated after another mix *)
    Lemma next_mix m l x : process_mix dbg sk r s m = Ok l -> In x l -> s_type x = TMix ->
      dbg = true \/ mx_index m <> xff -> validate dbg s x <> Ok tt.
    Proof.
      intros P I Ty G V. unfold process_mix in P. apply bind_ok in P as (el & A & P).
      destruct (trustee_from_election el (node_key sk)) as [t|] eqn:T; [|injection P as <-; destruct I].
      destruct (el_mix_config el) as [mc|]; [|injection P as <-; destruct I].
      apply bind_ok in P as (nx & Nx & P). destruct (Byte.eqb (el_threshold el) nx).
      - assert (Q : forall l n t k c sh e xs, partials_from sk r n t k c sh e l = Ok xs -> In x xs -> s_type x = TPartialDecryption).
        { clear. induction l as [|[[[up idx] c] cts] l IH]; intros n t k cm sh e xs E I; cbn [partials_from] in E; [injection E as <-; destruct I|].
          apply bind_ok in E as (ds & _ & E). apply bind_ok in E as (y & Y & E). apply bind_ok in E as (ys & D & E).
          injection E as <-. destruct I as [<-|I]; [|eauto]. unfold tsign in Y. apply map_err_ok, sign_ok in Y as [-> _]. reflexivity. }
        unfold produce_partials in P. apply bind_ok in P as (? & _ & P). apply bind_ok in P as (? & _ & P).
        apply bind_ok in P as (? & _ & P). apply Q in P; [|exact I]. congruence.
      - apply bind_ok in P as (turn & _ & P). destruct (Byte.eqb (tr_index t) turn); [|injection P as <-; destruct I].
        apply bind_ok in P as (k & _ & P). apply bind_ok in P as (mp & _ & P).
        unfold one in P. apply bind_ok in P as (y & S & P). injection P as <-. destruct I as [<-|[]].
        unfold tsign in S. apply map_err_ok, sign_ok in S as [-> S]. apply (validate_iff s L H) in V as (_ & _ & V).
        cbn [s_tx ok_tx] in V. destruct V as (_ & _ & _ & _ & ins & k' & [F|F] & _).
        + destruct F as (_ & F & _). cbn [mx_index] in F. subst nx. clear -Nx G.
          destruct (mx_index m); try discriminate Nx. destruct dbg; [discriminate Nx|]. destruct G; [discriminate|congruence].
        + destruct F as (p & pm & F & _). discriminate F.
    Qed.
  End Mix.
End Facts.
