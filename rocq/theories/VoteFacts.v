(** * VoteFacts: order of checks of a vote. *)
From Verif Require Import Base BaseFacts Hex HexFacts Utf8 Cbor CborFacts Ident BuildId IdentFacts Crypto Types
  Serde SerdeFacts Store SpecStore StoreFacts Prost Validate ValidateFacts SpecValid ValidFacts ValidFacts2
  ValidFacts3 SpecVote.
Open Scope list_scope.

(** [m] tests [P] and reports [e] when it fails *)
Definition tests {E} (m : res E unit) (P : Prop) (e : E) : Prop := (m = Ok tt /\ P) \/ (m = Err e /\ ~ P).

Lemma tests_fail_if {E} (c : bool) (e : E) P : (c = false <-> P) -> tests (fail_if c e) P e.
Proof.
  intros F. unfold tests. destruct c; cbn; [right|left]; split; try reflexivity.
  - intros X. apply F in X. discriminate.
  - apply F. reflexivity.
Qed.
Lemma tests_seq {E} (m : res E unit) P e0 (k : res E unit) l e :
  tests m P e0 -> (P -> (k = Err e <-> first_failing l e)) ->
  ((m ;; k) = Err e <-> first_failing ((P, e0) :: l) e).
Proof.
  intros [[-> HP]|[-> HP]] K; cbn [bind].
  - rewrite (K HP). split; [apply ff_later, HP|]. intros X. inversion X; subst; [contradiction|assumption].
  - split.
    + intros X. injection X as <-. apply ff_here, HP.
    + intros X. inversion X; subst; [reflexivity|contradiction].
Qed.
Lemma tests_last {E} (m : res E unit) P e0 e :
  tests m P e0 -> (m = Err e <-> first_failing [(P, e0)] e).
Proof.
  intros [[-> HP]|[-> HP]].
  - split; [discriminate|]. intros X. inversion X as [|? ? ? ? ? Y]; subst; [contradiction|inversion Y].
  - split; [intros X; injection X as <-; apply ff_here, HP|]. intros X.
    inversion X as [|? ? ? ? ? Y]; subst; [reflexivity|contradiction].
Qed.
Lemma tests_iff {E} (m : res E unit) P Q e : (P <-> Q) -> tests m P e -> tests m Q e.
Proof. unfold tests. tauto. Qed.
Lemma for_each_tests {E A} (f : A -> res E unit) (c : A -> list (Prop * E)) (k : res E unit) l0 e l :
  (forall a (k : res E unit) l', In a l -> (k = Err e <-> first_failing l' e) ->
     ((f a ;; k) = Err e <-> first_failing (c a ++ l') e)) ->
  (k = Err e <-> first_failing l0 e) ->
  ((for_each l f ;; k) = Err e <-> first_failing (flat_map c l ++ l0) e).
Proof.
  intros F K. induction l as [|a l IH]; cbn [for_each flat_map app]; [exact K|].
  rewrite <- app_assoc. rewrite <- (F a (for_each l f ;; k)).
  - destruct (f a) as [[]| |]; cbn [bind]; reflexivity.
  - left. reflexivity.
  - apply IH. intros b k' l' Hb. apply F. right. exact Hb.
Qed.

Section Facts.
  Context {C : Crypto}.
  Variables (s : Store) (L : list STx).
  Hypothesis H : holds s L.
  Let asc : ascending L := h_asc _ _ H.

  Lemma collision_tests {A} t (f : Identifier -> res VError A) :
    exists m, tests m (forall x, In x L -> ~ collision_slot (vt_election t) (vt_key t) (s_id x))
                VoteAnonymousKeyCollision
      /\ forall k, (let! a := id_start (vt_election t) TVote (Some (firstn 10 (arr_l (sv (vt_key t))))) in
           let! b := id_start (vt_election t) TVote (Some (firstn 10 (arr_l (sv (vt_key t))))) in
           let! l := lift (st_range s a b) in
           fail_if (Nat.ltb 0 (length l)) VoteAnonymousKeyCollision ;; k) = ((m ;; k) : res VError unit).
  Proof.
    exists (let mask := firstn 10 (arr_l (sv (vt_key t))) in
       let! a := id_start (vt_election t) TVote (Some mask) in
       let! b := id_start (vt_election t) TVote (Some mask) in
       let! l := lift (st_range s a b) in
       fail_if (Nat.ltb 0 (length l)) VoteAnonymousKeyCollision).
    pose proof (collision_check_iff s L H t) as I. cbn zeta in *.
    set (mask := firstn 10 _) in *. assert (Hm : length mask = 10).
    { unfold mask. rewrite firstn_length, arr_len. reflexivity. }
    assert (exists i, @id_start VError (vt_election t) TVote (Some mask) = Ok i) as (i & Hi).
    { unfold id_start, id_masked. destruct (masked x00 mask) as [u|] eqn:M; [eauto|].
      exfalso. unfold masked in M. revert M. generalize (masked_ok x00 mask). rewrite Hm. discriminate. }
    rewrite Hi in *. cbn [bind] in *. rewrite (holds_point _ _ _ H) in *. cbn [lift bind] in *.
    split.
    - apply tests_fail_if. rewrite <- I, fail_if_tt. reflexivity.
    - intros k. destruct (fail_if _ _); reflexivity.
  Qed.

  Lemma auth_tests a e b k sig :
    (forall pk m, rsa_hash pk m <> None) ->
    tests (map_err (fun _ => AuthFailed) (auth_verify a e b k sig)) (authenticated a e b k sig) AuthFailed.
  Proof.
    intros T. pose proof (auth_verify_iff a e b k sig) as I.
    destruct (auth_verify a e b k sig) as [[]|er|p] eqn:E; cbn [map_err].
    - left. split; [reflexivity|]. apply I. reflexivity.
    - right. split; [reflexivity|]. intros X. apply I in X. discriminate.
    - exfalso. unfold auth_verify, auth_digest in E. destruct (assoc _ _ _) as [pk|]; cbn [ok_or bind] in E; [|discriminate].
      destruct (rsa_hash pk _) eqn:R; [|exact (T _ _ R)]. cbn [or_panic bind] in E.
      destruct (rsa_verify _ _ _); discriminate.
  Qed.

  Lemma vote_errors dbg x t :
    (forall pk m, rsa_hash pk m <> None) -> s_tx x = XVote t ->
    forall e, validate dbg s x = Err e <-> first_failing (vote_checks L x t) e.
  Proof.
    intros T Hx e. unfold validate, vote_checks. cbn zeta. rewrite Hx. cbn [validate_tx]. cbn [app].
    apply tests_seq.
    { apply tests_fail_if. rewrite negb_false_iff, tt_eqb_eq. unfold s_id, s_type. rewrite Hx. reflexivity. }
    intros _. apply tests_seq.
    { unfold verify_signature, signed_by, tests. rewrite Hx. cbn [tx_public]. unfold tx_bytes.
      destruct (ed_verify _ _ _); [left|right]; split; congruence. }
    intros _. unfold validate_vote. apply tests_seq.
    { apply tests_fail_if. rewrite negb_false_iff, id_eqb_eq. split.
      - intros <-. cbn. auto.
      - intros (A1 & A2 & A3). apply id_ext; cbn; auto. apply arr_ext. cbn. auto. }
    intros _.
    destruct (election_of s (vt_election t)) as [el|er|p] eqn:E.
    2,3: unfold election_of, q, get_election in E;
      destruct (get_typed as_election TElection s (vt_election t)) as [[a g]|nf|p'] eqn:G; cbn [map_err bind] in E; try discriminate.
    2: { assert (N : ~ exists el, at_id L (vt_election t) (XElection el)).
         { intros (el & A). apply (typed_at s L H as_election XElection TElection _ _ as_election_iff) in A as (g & A). congruence. }
         cbn [bind]. injection E as <-. unfold get_typed in G. rewrite (h_get _ _ H) in G. cbn [lift bind] in G.
         assert (nf = mk_notfound (vt_election t) TElection).
         { destruct (entry L (vt_election t)) as [y|]; [|congruence]. destruct (as_election (s_tx y)); congruence. }
         subst nf. split; [intros X; injection X as <-; apply ff_here, N|].
         intros X. inversion X; subst; [reflexivity|contradiction]. }
    2: { unfold get_typed in G. rewrite (h_get _ _ H) in G. cbn [lift bind] in G.
         destruct (entry L _) as [y|]; [|discriminate]. destruct (as_election _); discriminate. }
    assert (A : at_id L (vt_election t) (XElection el)) by (apply (election_of_iff s L H), E).
    assert (U : forall P : ElectionTx -> Prop, (forall el', at_id L (vt_election t) (XElection el') -> P el') <-> P el).
    { intros P. split; [intros X; apply X, A|]. intros X el' A'.
      pose proof (at_id_fun s L H _ _ _ A A') as Q. injection Q as <-. exact X. }
    assert (I : el_id el = vt_election t) by (destruct A as (y & _ & B1 & B2); unfold s_id in B1; rewrite B2 in B1; exact B1).
    cbn [bind]. destruct (@collision_tests unit t (fun _ => Ok tt)) as (m & Hm & K). rewrite K. clear K.
    assert (ST : forall k : res VError unit, k = (Ok tt ;; k)) by reflexivity.
    rewrite (ST (m ;; _)). apply (tests_seq (Ok tt)). { left. split; [reflexivity|]. exists el. exact A. }
    intros _. apply tests_seq; [exact Hm|]. intros _. rewrite !(h_get _ _ H). cbn [lift bind].
    change (id_new (vt_election t) TEncryptionKey None) with (slot0 (vt_election t) TEncryptionKey).
    change (id_new (vt_election t) TVotingEnd None) with (slot0 (vt_election t) TVotingEnd).
    apply tests_seq.
    { apply tests_fail_if. rewrite (occupied_entry s L H). destruct (entry L _); split; congruence. }
    intros _. apply tests_seq.
    { apply tests_fail_if. rewrite (occupied_entry s L H). destruct (entry L _); split; try congruence.
      intros X. exfalso. apply X. congruence. }
    intros _. apply for_each_tests.
    - intros an k l' _ K.
      assert (F : forall a, get_authenticator el (an_authenticator an) = Some a <->
                first_with (fun a => au_id a = an_authenticator an) (el_authenticators el) a).
      { intros a. unfold get_authenticator. apply find_first. intros y. rewrite arr_eqb_eq. split; congruence. }
      destruct (get_authenticator el (an_authenticator an)) as [a|] eqn:G; cbn [ok_or bind app].
      + rewrite (ST (_ ;; k)). apply (tests_seq (Ok tt)). { left. split; [reflexivity|]. apply (proj2 (U _)). exists a. apply F, eq_refl. }
        intros _. apply tests_seq; [|intros _; exact K]. rewrite I. eapply tests_iff; [symmetry; apply U|]. cbn beta. eapply tests_iff; [|apply auth_tests, T].
        split; [intros X a' Fa; apply F in Fa; injection Fa as <-; exact X|]. intros X. apply X. apply F. reflexivity.
      + split; [intros X; injection X as <-; apply ff_here; intros X; apply (proj1 (U _)) in X; destruct X as (a & X); apply F in X; discriminate|].
        intros X. inversion X as [|? ? ? ? Y]; subst; [reflexivity|]. apply (proj1 (U _)) in Y.
        destruct Y as (a & Y). apply F in Y. discriminate.
    - assert (F : forall b, get_ballot el (vt_ballot t) = Some b <->
                first_with (fun b => bal_id b = vt_ballot t) (el_ballots el) b).
      { intros b. unfold get_ballot. apply find_first. intros y. apply rs_eqb_eq. }
      destruct (get_ballot el (vt_ballot t)) as [b|] eqn:G; cbn [ok_or bind app].
      + rewrite (ST (for_each _ _)). apply (tests_seq (Ok tt)). { left. split; [reflexivity|]. apply (proj2 (U _)). exists b. apply F, eq_refl. }
        intros _. apply tests_last.
        assert (Q : (forall b', first_with (fun b => bal_id b = vt_ballot t) (el_ballots el) b' ->
                   forall ev, In ev (vt_votes t) -> In (ev_contest ev) (bal_contests b'))
                 <-> forall ev, In ev (vt_votes t) -> In (ev_contest ev) (bal_contests b)).
        { split; [intros X; apply X, F, eq_refl|]. intros X b' Fb. apply F in Fb. injection Fb as <-. exact X. }
        eapply tests_iff; [symmetry; apply U|]. cbn beta. eapply tests_iff; [symmetry; exact Q|]. clear.
        induction (vt_votes t) as [|v l IH]; cbn [for_each]; [left; split; [reflexivity|intros ev []]|].
        assert (B : negb (existsb (u_eqb (ev_contest v)) (bal_contests b)) = false <-> In (ev_contest v) (bal_contests b)).
        { rewrite negb_false_iff, (existsb_ex _ (fun c => ev_contest v = c)).
          - split; [intros (y & X & <-); exact X|]. intros X. exists (ev_contest v). auto.
          - intros y. apply u_eqb_eq. }
        destruct (negb _); cbn [fail_if bind].
        * right. split; [reflexivity|]. intros X. assert (true = false) by (apply B, X; left; reflexivity). discriminate.
        * destruct IH as [[-> Y]|[-> Y]]; [left|right]; split; try reflexivity.
          -- intros ev [<-|Hv]; [apply B, eq_refl|apply Y, Hv].
          -- intros X. apply Y. intros ev Hv. apply X. right. exact Hv.
      + split; [intros X; injection X as <-; apply ff_here; intros X; apply (proj1 (U _)) in X; destruct X as (b & X); apply F in X; discriminate|].
        intros X. inversion X as [|? ? ? ? Y]; subst; [reflexivity|]. apply (proj1 (U _)) in Y.
        destruct Y as (b & Y). apply F in Y. discriminate.
  Qed.
End Facts.
