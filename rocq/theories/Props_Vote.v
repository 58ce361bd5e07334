(** * Props_Vote: C15-C20 (votes, voting end, slots). *)
From Verif Require Import Base BaseFacts Utf8 Cbor CborFacts Hex HexFacts Ident BuildId IdentFacts Crypto Types Serde SerdeFacts
  Store SpecStore StoreFacts Prost Validate ValidateFacts SpecValid ValidFacts ValidFacts2 ValidFacts3
  SpecHist HistFacts SpecVote VoteFacts Toy Scene.
From Coq Require Import Strings.String ZifyBool ZifyNat ZifyN.
Open Scope list_scope.

Section Props.
  Context {C : Crypto}.

  (** ** C15 *)
  Theorem C15_vote_acceptance_rule :
    forall dbg s L x t, holds s L -> s_tx x = XVote t ->
    (validate dbg s x = Ok tt <-> signed_by (vt_key t) x /\ ok_vote L t).
  Proof.
    intros dbg s L x t H Hx. rewrite (validate_iff s L H), Hx. unfold s_id, s_type. rewrite Hx.
    cbn [tx_id tx_type tx_public ok_tx]. split.
    - intros (A & B & D). auto.
    - intros (B & D). split; [|split; [intros k Hk; congruence|exact D]].
      destruct D as (el & _ & (_ & D & _) & _). exact D.
  Qed.
  (** which error is reported: that of the first failing check (hashing assumed total) *)
  Theorem C15_first_failing_check_decides :
    forall dbg s L x t, holds s L -> s_tx x = XVote t -> (forall pk m, rsa_hash pk m <> None) ->
    forall e, validate dbg s x = Err e <-> first_failing (vote_checks L x t) e.
  Proof. intros dbg s L x t H Hx T e. exact (vote_errors s L H dbg x t T Hx e). Qed.
  (** the signed message of an authentication determines election, ballot and key *)
  Theorem C15_authentication_message_injective :
    forall e b k e' b' k',
    (N.of_nat (List.length (sv b)) < 2^64)%N -> (N.of_nat (List.length (sv b')) < 2^64)%N ->
    auth_message e b k = auth_message e' b' k' -> e = e' /\ b = b' /\ k = k'.
  Proof.
    intros e b k e' b' k' Hb Hb' E.
    assert (W : forall e b (k : PublicKey), (N.of_nat (List.length (sv b)) < 2^64)%N ->
       cwf (CMap [(CText (lit "election_id"), ser_id e); (CText (lit "ballot_id"), CText b);
                (CText (lit "anonymous_key"), CBytes (arr_l (sv k)))]) = true).
    { clear. intros e b k Hb. cbn [cwf forallb].
      assert (W : cwf (ser_id e) = true).
      { unfold ser_id, hex_text. cbn [cwf sv]. fold (id_to_string e). unfold clen.
        rewrite id_to_string_length. reflexivity. }
      assert (Wb : (clen (sv b) <? pow256 8)%N = true) by (apply N.ltb_lt; exact Hb).
      assert (Wk : (clen (arr_l (sv k)) <? pow256 8)%N = true)
        by (unfold clen; rewrite arr_len; reflexivity).
      rewrite W. repeat (apply andb_true_iff; split); try exact Wb; try exact Wk; reflexivity. }
    apply cenc_inj in E; [|apply W; assumption..]. injection E as E1 E2 E3.
    split; [|split].
    - apply id_to_string_inj. exact E1.
    - exact E2.
    - apply sub_ext, arr_ext. exact E3.
  Qed.

  (** ** C16: what is guaranteed *)
  Theorem C16_attached_authentications_verify_partial :
    forall dbg s L x t el, holds s L -> s_tx x = XVote t -> validate dbg s x = Ok tt ->
    at_id L (vt_election t) (XElection el) ->
    forall an, In an (vt_authn t) -> exists a, In a (el_authenticators el) /\ au_id a = an_authenticator an
      /\ authenticated a (vt_election t) (vt_ballot t) (vt_key t) (an_signature an).
  Proof.
    intros dbg s L x t el H Hx V Hel an Han.
    apply (C15_vote_acceptance_rule dbg s L x t H Hx) in V as (_ & el' & A & _ & _ & _ & _ & V & _).
    pose proof (at_id_fun s L H _ _ _ A Hel) as E. injection E as ->.
    destruct (V an Han) as (a & F & Ha). apply first_in in F as [F1 F2]. exists a. auto.
  Qed.
  (** a vote that carries enough different authentications has its quorum *)
  Theorem C16_quorum_if_attached_partial :
    forall dbg s L x t el, holds s L -> s_tx x = XVote t -> validate dbg s x = Ok tt ->
    at_id L (vt_election t) (XElection el) ->
    NoDup (map an_authenticator (vt_authn t)) ->
    (u8v (el_auth_threshold el) <= N.of_nat (List.length (vt_authn t)))%N ->
    auth_quorum el t.
  Proof.
    intros dbg s L x t el H Hx V Hel N Hn.
    pose proof (C16_attached_authentications_verify_partial dbg s L x t el H Hx V Hel) as G.
    assert (Q : forall l, (forall an, In an l -> In an (vt_authn t)) -> NoDup (map an_authenticator l) ->
       exists r : list Authenticator, map au_id r = map an_authenticator l
         /\ forall a, In a r -> In a (el_authenticators el)
           /\ exists an, In an (vt_authn t) /\ an_authenticator an = au_id a
                /\ authenticated a (vt_election t) (vt_ballot t) (vt_key t) (an_signature an)).
    { induction l as [|an l IH]; intros Hl Nl; [exists []; split; [reflexivity|intros a []]|].
      inversion Nl; subst. destruct IH as (r & Hr & Hr'); [intros b Hb; apply Hl; right; exact Hb|assumption|].
      destruct (G an (Hl an (or_introl eq_refl))) as (a & A1 & A2 & A3).
      exists (a :: r). split; [cbn; congruence|]. intros b [<-|Hb]; [|auto]. split; [exact A1|].
      exists an. split; [apply Hl; left; reflexivity|]. auto. }
    destruct (Q (vt_authn t)) as (r & Hr & Hr'); [auto|exact N|].
    exists r. split; [rewrite Hr; exact N|]. split; [|exact Hr'].
    apply (f_equal (@List.length _)) in Hr. rewrite !map_length in Hr. rewrite Hr. exact Hn.
  Qed.

  (** ** C17: what is guaranteed *)
  Theorem C17_contests_belong_to_ballot_partial :
    forall dbg s L x t, holds s L -> s_tx x = XVote t -> validate dbg s x = Ok tt ->
    exists el b, at_id L (vt_election t) (XElection el) /\ In b (el_ballots el) /\ bal_id b = vt_ballot t
      /\ forall ev, In ev (vt_votes t) -> In (ev_contest ev) (bal_contests b).
  Proof.
    intros dbg s L x t H Hx V.
    apply (C15_vote_acceptance_rule dbg s L x t H Hx) in V as (_ & el & A & _ & _ & _ & _ & _ & b & F & V).
    apply first_in in F as [F1 F2]. exists el, b. auto.
  Qed.

  (** ** C18: what is guaranteed *)
  (** two recorded votes of an election differ in the first 16 bytes of the key *)
  Theorem C18_first_16_bytes_differ_partial :
    forall dbg l x y t u, history dbg l -> In x l -> In y l -> s_tx x = XVote t -> s_tx y = XVote u ->
    id_election (vt_election t) = id_election (vt_election u) ->
    firstn 16 (arr_l (sv (vt_key t))) = firstn 16 (arr_l (sv (vt_key u))) -> x = y.
  Proof.
    intros dbg l x y t u Hl Hx Hy Tx Ty He Hk. apply (hist_unique dbg l x y Hl Hx Hy).
    assert (G : forall z v, In z l -> s_tx z = XVote v ->
       id_election (s_id z) = id_election (vt_election v) /\ id_type (s_id z) = TVote
          /\ arr_l (id_unique (s_id z)) = firstn 16 (arr_l (sv (vt_key v)))).
    { intros z v Hz Tz. destruct (hist_accepted dbg l z Hl Hz) as (p & q & _ & _ & _ & V).
      apply (C15_vote_acceptance_rule dbg _ _ z v (stored_holds p) Tz) in V as (_ & el & _ & V & _).
      unfold s_id. rewrite Tz. exact V. }
    destruct (G x t Hx Tx) as (A1 & A2 & A3). destruct (G y u Hy Ty) as (B1 & B2 & B3).
    apply id_ext; [congruence..|]. apply arr_ext. congruence.
  Qed.
  (** the check really made: a vote is refused when the slot "first 10 bytes, then zeros" is taken *)
  Theorem C18_actual_collision_check_partial :
    forall dbg s L x t y, holds s L -> s_tx x = XVote t -> In y L ->
    id_election (s_id y) = id_election (vt_election t) -> id_type (s_id y) = TVote ->
    arr_l (id_unique (s_id y)) = (firstn 10 (arr_l (sv (vt_key t))) ++ repeat x00 6)%list ->
    validate dbg s x <> Ok tt.
  Proof.
    intros dbg s L x t y H Hx Hy A B D V.
    apply (C15_vote_acceptance_rule dbg s L x t H Hx) in V as (_ & el & _ & _ & V & _).
    apply (V y Hy). unfold collision_slot. auto.
  Qed.

  (** ** C19 *)
  Theorem C19_only_the_authority_ends_voting :
    forall dbg s L x t, holds s L -> s_tx x = XVotingEnd t -> validate dbg s x = Ok tt ->
    exists el, at_id L (ve_election t) (XElection el) /\ signed_by (el_authority el) x.
  Proof.
    intros dbg s L x t H Hx V. apply (validate_iff s L H) in V as (_ & V1 & V2). rewrite Hx in V1, V2.
    destruct V2 as (el & A & B). exists el. split; [exact A|]. rewrite <- B. apply V1. reflexivity.
  Qed.
  (** voting is closed exactly by an entry in the slot (election, VotingEnd, 0) *)
  Theorem C19_slot_closes_voting_partial :
    forall dbg s L x t, holds s L -> s_tx x = XVote t ->
    (exists y, In y L /\ s_id y = mk_id (id_election (vt_election t)) TVotingEnd (arr_rep x00 16)) ->
    validate dbg s x <> Ok tt.
  Proof.
    intros dbg s L x t H Hx Hy V.
    apply (C15_vote_acceptance_rule dbg s L x t H Hx) in V as (_ & el & _ & _ & _ & _ & V & _).
    apply V. exact Hy.
  Qed.

  (** a vote's acceptance depends only on the entries of its own election, whatever the store *)
  Theorem C19_other_elections_unaffected_partial :
    forall dbg s s' L L' x t, holds s L -> holds s' L' -> s_tx x = XVote t ->
    (forall y, id_election (s_id y) = id_election (vt_election t) -> (In y L <-> In y L')) ->
    (validate dbg s x = Ok tt <-> validate dbg s' x = Ok tt).
  Proof.
    assert (G : forall dbg s s' L L' x t, holds s L -> holds s' L' -> s_tx x = XVote t ->
      (forall y, id_election (s_id y) = id_election (vt_election t) -> (In y L <-> In y L')) ->
      validate dbg s x = Ok tt -> validate dbg s' x = Ok tt).
    { intros dbg s s' L L' x t H H' Hx S V.
      apply (C15_vote_acceptance_rule dbg s L x t H Hx) in V as (V0 & el & A & B & D & F & G & V).
      apply (C15_vote_acceptance_rule dbg s' L' x t H' Hx). split; [exact V0|]. exists el.
      split; [|split; [exact B|split; [|split; [|split; [|exact V]]]]].
      - destruct A as (y & A1 & A2 & A3). exists y. split; [apply S; [congruence|exact A1]|auto].
      - intros y Hy K. refine (D y _ K). apply S; [exact (proj1 K)|exact Hy].
      - destruct F as (y & F1 & F2). exists y. split; [apply S; [rewrite F2; reflexivity|exact F1]|exact F2].
      - intros (y & G1 & G2). apply G. exists y. split; [apply S; [rewrite G2; reflexivity|exact G1]|exact G2]. }
    intros dbg s s' L L' x t H H' Hx S. split; [apply (G dbg s s' L L' x t); auto|].
    apply (G dbg s' s L' L x t); auto. intros y Hy. symmetry. auto.
  Qed.

  (** ** C20: five transaction types are tied to the election they name *)
  Theorem C20_slot_of_named_election_partial :
    forall dbg s L x, holds s L -> validate dbg s x = Ok tt ->
    match tx_type (s_tx x) with
    | TElection | TVote | TMix | TPartialDecryption | TDecryption => True | _ => False end ->
    id_election (s_id x) = id_election (tx_election (s_tx x)).
  Proof.
    intros dbg s L x H V. apply (validate_iff s L H) in V as (_ & _ & V). unfold s_id.
    destruct (s_tx x) as [t|t|t|t|t|t|t|t|t|t]; cbn [tx_type tx_id tx_election ok_tx] in *; try tauto; intros _.
    - destruct V as (el & _ & (V & _) & _). exact V.
    - destruct V as (V & _). rewrite V. reflexivity.
    - destruct V as (el & row & pk & _ & _ & V & _). rewrite V. reflexivity.
    - destruct V as (el & row & pks & parts & _ & V & _). rewrite V. reflexivity.
  Qed.
End Props.

(** ** Examples and counterexamples *)
#[local] Existing Instance Toy.

Definition before_votes := setup None.
Definition voted := setup None ++ [vote x20 (lit "yes")].
Example C15_example :
  validate true (ms_store (ms_from before_votes)) (vote x20 (lit "yes")) = Ok tt
  /\ validate true (ms_store (ms_from (firstn 7 before_votes))) (vote x20 (lit "yes"))
     = Err EncryptionKeyTransactionDoesNotExist
  /\ validate true (ms_store (ms_from (before_votes ++ [votingend]))) (vote x20 (lit "yes")) = Err VotingHasEnded
  /\ validate true (ms_store (ms_from before_votes))
       (sgn x20 (XVote (mk_vote (vote_build_id EID (key_of x20)) EID b1 [] (pk_of x20) [authn x21]))) = Err AuthFailed
  /\ validate true (ms_store (ms_from before_votes))
       (sgn x20 (XVote (mk_vote (vote_build_id EID (key_of x20)) EID b1 [mk_encvote (n32 7) []] (pk_of x20) [authn x20])))
     = Err VotedInWrongContest.
Proof. repeat split; vm_compute; reflexivity. Qed.
(** the totality hypothesis holds for the keys of a variant of the toy instance; here it is only
    needed that the hash of the key in use exists *)
Definition TotalToy : Crypto := {|
  ed_pk_ok := @ed_pk_ok Toy; ed_sig_ok := @ed_sig_ok Toy; ed_secret := @ed_secret Toy;
  ed_public := @ed_public Toy; ed_sign := @ed_sign Toy; ed_verify := @ed_verify Toy;
  rsa_pk_ok := @rsa_pk_ok Toy; rsa_hash := fun pk m => Some (sv pk ++ toy_hash m);
  rsa_verify := @rsa_verify Toy; ct_ok := @ct_ok Toy; eg_pk_ok := @eg_pk_ok Toy;
  commit_ok := @commit_ok Toy; pkproof_ok := @pkproof_ok Toy; dshare_ok := @dshare_ok Toy;
  shproof_ok := @shproof_ok Toy; share_verify := @share_verify Toy;
  threshold_decrypt := @threshold_decrypt Toy; shuffle_verify := @shuffle_verify Toy |}.
Example C15_total_example : forall pk m, @rsa_hash TotalToy pk m <> None.
Proof. discriminate. Qed.
Example C15_message_example : auth_message EID b1 (pk_of x20) <> auth_message EID b1 (pk_of x21)
  /\ (N.of_nat (List.length (sv b1)) < 2^64)%N.
Proof. split; [vm_compute; discriminate|reflexivity]. Qed.

(** C16 refuted: a vote without any authentication is accepted although the threshold is 1 *)
Definition vote_no_auth : VoteTx :=
  mk_vote (vote_build_id EID (key_of x20)) EID b1 [mk_encvote (n32 0) [enc (sel (lit "yes")) 1]] (pk_of x20) [].
Theorem C16_quorum_refuted :
  exists l x t el, history true l /\ s_tx x = XVote t /\ at_id (stored l) (vt_election t) (XElection el)
    /\ (0 < u8v (el_auth_threshold el))%N
    /\ validate true (ms_store (ms_from l)) x = Ok tt /\ ~ auth_quorum el t.
Proof.
  exists before_votes, (sgn x20 (XVote vote_no_auth)), vote_no_auth, (election None).
  split; [apply run_history; vm_compute; reflexivity|]. split; [reflexivity|]. split.
  { exists (sgn x01 (XElection (election None))). split; [|split; reflexivity].
    apply stored_in; [apply (hist_nodup true); apply run_history; vm_compute; reflexivity|left; reflexivity]. }
  split; [reflexivity|]. split; [vm_compute; reflexivity|].
  intros (l & _ & Hl & G). destruct l as [|a l]; [vm_compute in Hl; apply Hl; reflexivity|].
  destruct (G a (or_introl eq_refl)) as (_ & an & [] & _).
Qed.
(** the same authentication attached twice is accepted in an election that requires two *)
Definition UID2 : uuid := arr_rep x56 16.
Definition election2auth : ElectionTx :=
  mk_election EID (pk_of x01) [T x0a x01; T x0b x02] x02 [auth1; mk_authenticator UID2 keys1] x02 None
    [ballot1] [contest0] no_props.
Definition vote_twice_auth : VoteTx :=
  mk_vote (vote_build_id EID (key_of x20)) EID b1 [mk_encvote (n32 0) [enc (sel (lit "yes")) 1]] (pk_of x20)
    [authn x20; authn x20].
Theorem C16_repeated_authentication_refuted :
  exists l x t el, history true l /\ s_tx x = XVote t /\ at_id (stored l) (vt_election t) (XElection el)
    /\ validate true (ms_store (ms_from l)) x = Ok tt
    /\ List.length (vt_authn t) = 2 /\ ~ auth_quorum el t.
Proof.
  set (l := sgn x01 (XElection election2auth) :: tl before_votes).
  assert (Hl : history true l) by (apply run_history; vm_compute; reflexivity).
  exists l, (sgn x20 (XVote vote_twice_auth)), vote_twice_auth, election2auth.
  split; [exact Hl|]. split; [reflexivity|]. split.
  { exists (sgn x01 (XElection election2auth)). split; [|split; reflexivity].
    apply stored_in; [apply (hist_nodup true), Hl|left; reflexivity]. }
  split; [vm_compute; reflexivity|]. split; [reflexivity|].
  intros (r & Nr & Hr & G).
  assert (U : forall a, In a r -> au_id a = UID).
  { intros a Ha. destruct (G a Ha) as (_ & an & [<-|[<-|[]]] & E & _); exact (eq_sym E). }
  destruct r as [|a [|b r]]; [vm_compute in Hr; apply Hr; reflexivity..|].
  cbn [map] in Nr. rewrite (U a), (U b) in Nr by (cbn; auto). inversion Nr as [|? ? N _]. apply N. left. reflexivity.
Qed.

(** C17 refuted: an accepted vote with two entries for the same contest *)
Definition vote_double : VoteTx :=
  mk_vote v20 EID b1 [mk_encvote (n32 0) [enc (sel (lit "yes")) 1]; mk_encvote (n32 0) [enc (sel (lit "yes")) 2]]
    (pk_of x20) [authn x20].
Definition vote_other_contest : VoteTx :=
  mk_vote v21 EID b1 [mk_encvote (n32 1) [enc (sel (lit "no")) 3]] (pk_of x21) [authn x21].
Definition mix_double : MixTx := mix_of x0a x01 x00 None VIDS
  [[enc (sel (lit "yes")) 7]; [enc (sel (lit "yes")) 8]].
Theorem C17_one_entry_per_contest_refuted :
  exists l x t, history true l /\ In x l /\ s_tx x = XVote t /\ ~ NoDup (map ev_contest (vt_votes t)).
Proof.
  exists (setup None ++ [sgn x20 (XVote vote_double)]), (sgn x20 (XVote vote_double)), vote_double.
  split; [apply run_history; vm_compute; reflexivity|]. split; [apply in_or_app; right; left; reflexivity|].
  split; [reflexivity|]. intros N. inversion N as [|? ? X _]. apply X. left. reflexivity.
Qed.
(** and a recorded first mix with two rows cast by one voter and none by the other *)
Theorem C17_two_rows_of_one_voter_mixed_refuted :
  exists l m x t, history true l /\ In (sgn x0a (XMix m)) l /\ mx_prev m = None
    /\ In x l /\ s_tx x = XVote t /\ In (s_id x) (mx_votes m)
    /\ List.length (cast_rows (mx_contest m) (vt_votes t)) = 2
    /\ List.length (mx_out m) = List.length (mx_votes m).
Proof.
  set (l := setup (Some mixcfg) ++ [sgn x20 (XVote vote_double); sgn x21 (XVote vote_other_contest); votingend;
              sgn x0a (XMix mix_double)]).
  exists l, mix_double, (sgn x20 (XVote vote_double)), vote_double.
  split; [apply run_history; vm_compute; reflexivity|].
  split; [unfold l; do 11 right; left; reflexivity|]. split; [reflexivity|].
  split; [unfold l; do 8 right; left; reflexivity|]. split; [reflexivity|].
  split; [left; reflexivity|]. split; [vm_compute; reflexivity|reflexivity].
Qed.

(** C18 refuted: two recorded votes whose keys agree on the first 10 bytes *)
Definition keyA : arr 32 := @mk_arr 32 (repeat x20 10 ++ repeat x01 22) eq_refl.
Definition keyB : arr 32 := @mk_arr 32 (repeat x20 10 ++ repeat x02 22) eq_refl.
Definition vote_of_key (k : arr 32) : STx :=
  let pk : PublicKey := any k in
  let t := XVote (mk_vote (vote_build_id EID k) EID b1 [mk_encvote (n32 0) [enc (sel (lit "yes")) 1]] pk
              [mk_authentication UID ([x99] ++ toy_hash (auth_pack EID b1 pk))]) in
  mk_stx t (ed_sign k (tx_bytes t)).
Theorem C18_collision_refuted :
  exists l x y t u, history true l /\ In x l /\ In y l /\ s_tx x = XVote t /\ s_tx y = XVote u
    /\ vt_election t = vt_election u /\ s_id x <> s_id y
    /\ firstn 10 (arr_l (sv (vt_key t))) = firstn 10 (arr_l (sv (vt_key u)))
    /\ decryption_build_id (vt_election t) (s_id x) (n32 0) (n16 0)
       = decryption_build_id (vt_election u) (s_id y) (n32 0) (n16 0)
    /\ forall i, partial_build_id (vt_election t) (s_id x) (n32 0) (n16 0) i
       = partial_build_id (vt_election u) (s_id y) (n32 0) (n16 0) i.
Proof.
  exists (setup None ++ [vote_of_key keyA; vote_of_key keyB]), (vote_of_key keyA), (vote_of_key keyB).
  do 2 eexists. split; [apply run_history; vm_compute; reflexivity|].
  split; [apply in_or_app; right; left; reflexivity|]. split; [apply in_or_app; right; right; left; reflexivity|].
  split; [reflexivity|]. split; [reflexivity|]. split; [reflexivity|].
  split; [vm_compute; discriminate|]. split; [reflexivity|]. split.
  - apply id_ext; [reflexivity..|]. apply arr_ext. vm_compute. reflexivity.
  - intros i. apply id_ext; [reflexivity..|]. apply arr_ext. reflexivity.
Qed.
Example C18_partial_example :
  validate true (ms_store (ms_from (setup None ++ [vote_of_key (@mk_arr 32 (repeat x20 10 ++ repeat x00 22) eq_refl)])))
    (vote_of_key keyA) = Err VoteAnonymousKeyCollision.
Proof. vm_compute. reflexivity. Qed.

(** ** another election, controlled by someone else *)
Definition EID2 : Identifier := election_build_id (arr_rep x22 15).
Definition electionB : ElectionTx :=
  mk_election EID2 (pk_of x02) [T x0c x01] x01 [] x00 None [ballot1] [contest0] no_props.
Definition evil_key : EGPublicKey := any (CUint (u_of 8 666)).
Definition electionB_tx : STx := sgn x02 (XElection electionB).

(** C19 refuted: an accepted VotingEnd with a nonzero unique part does not close the voting *)
Definition votingend_odd : STx :=
  sgn x01 (XVotingEnd (mk_votingend (mk_id (id_election EID) TVotingEnd (arr_rep x01 16)) EID (pk_of x01))).
Theorem C19_accepted_end_closes_refuted :
  exists l x t y u, history true (l ++ [x; y]) /\ s_tx x = XVotingEnd t /\ s_tx y = XVote u
    /\ ve_election t = vt_election u.
Proof.
  exists (setup None), votingend_odd. eexists. exists (vote x20 (lit "yes")). eexists.
  split; [apply run_history; vm_compute; reflexivity|]. repeat split; reflexivity.
Qed.
(** C19 refuted: the authority of election B ends the voting of election A *)
Definition votingend_foreign : STx :=
  sgn x02 (XVotingEnd (mk_votingend (votingend_build_id EID) EID2 (pk_of x02))).
Theorem C19_other_election_affected_refuted :
  exists l x t v u, history true (l ++ [x]) /\ s_tx x = XVotingEnd t /\ s_tx v = XVote u
    /\ id_election (ve_election t) <> id_election (vt_election u)
    /\ validate true (ms_store (ms_from l)) v = Ok tt
    /\ validate true (ms_store (ms_from (l ++ [x]))) v = Err VotingHasEnded.
Proof.
  exists (setup None ++ [electionB_tx]), votingend_foreign. eexists. exists (vote x20 (lit "yes")). eexists.
  split; [apply run_history; vm_compute; reflexivity|]. split; [reflexivity|]. split; [reflexivity|].
  split; [vm_compute; discriminate|]. split; vm_compute; reflexivity.
Qed.
Example C19_partial_example :
  validate true (ms_store (ms_from (setup None ++ [votingend]))) (vote x20 (lit "yes")) = Err VotingHasEnded
  /\ s_id votingend = mk_id (id_election EID) TVotingEnd (arr_rep x00 16).
Proof. split; vm_compute; reflexivity. Qed.
(** a complete second election in the store leaves the verdict alone *)
Example C19_unaffected_example :
  validate true (ms_store (ms_from (before_votes ++ [electionB_tx;
      sgn x02 (XVotingEnd (mk_votingend (votingend_build_id EID2) EID2 (pk_of x02)))]))) (vote x20 (lit "yes")) = Ok tt
  /\ validate true (ms_store (ms_from before_votes)) (vote x20 (lit "yes")) = Ok tt.
Proof. split; vm_compute; reflexivity. Qed.

(** C20 refuted for each of the other five types: all these transactions name election B, were
    authorised by keys of election B, and occupy slots of election A *)
Definition foreign : list STx :=
  [ sgn x0c (XCommitment (mk_commitment (commitment_build_id EID x01) EID2 x01 (pk_of x0c) (arr_rep x0c 32) (any CNull)));
    sgn x0c (XShare (mk_share (share_build_id EID x01) EID2 x01 (pk_of x0c)
               (@mk_sub _ (nodup_keys Byte.eqb) [(x01, [xaa])] eq_refl)));
    sgn x0c (XPublicKey (mk_pubkey (pubkey_build_id EID x01) EID2 x01 (pk_of x0c) evil_key (proof_of x01)));
    sgn x0c (XPublicKey (mk_pubkey (pubkey_build_id EID2 x01) EID2 x01 (pk_of x0c) evil_key (proof_of x01)));
    sgn x02 (XEncryptionKey (mk_enckey (enckey_build_id EID) EID2 (pk_of x02) evil_key));
    votingend_foreign ].
Theorem C20_foreign_slots_refuted :
  exists l, history true (l ++ foreign)
    /\ List.length (filter (fun x => negb (arr_eqb (id_election (s_id x)) (id_election (tx_election (s_tx x)))))
                           foreign) = 5.
Proof.
  exists [sgn x01 (XElection (election None)); electionB_tx].
  split; [apply run_history; vm_compute; reflexivity|vm_compute; reflexivity].
Qed.
(** consequence: the stranger's ElGamal key is what election A's encryption-key slot holds *)
Theorem C20_foreign_encryption_key_refuted :
  exists l k, history true l /\ at_id (stored l) (slot0 EID TEncryptionKey) (XEncryptionKey k)
    /\ ek_key k = evil_key /\ (exists el, at_id (stored l) EID (XElection el) /\ ek_authority k <> el_authority el).
Proof.
  set (l := [sgn x01 (XElection (election None)); electionB_tx] ++ foreign).
  assert (Hl : history true l) by (apply run_history; vm_compute; reflexivity).
  exists l, (mk_enckey (enckey_build_id EID) EID2 (pk_of x02) evil_key). split; [exact Hl|]. split.
  { eexists. split; [apply (hist_stored true); [exact Hl|do 6 right; left; reflexivity]|]. split; reflexivity. }
  split; [reflexivity|]. exists (election None). split.
  { eexists. split; [apply (hist_stored true); [exact Hl|left; reflexivity]|]. split; reflexivity. }
  intros E. apply (f_equal (fun k => arr_l (sv k))) in E. vm_compute in E. discriminate.
Qed.
Example C20_partial_example :
  validate true (ms_store (ms_from (setup None)))
    (sgn x20 (XVote (mk_vote (vote_build_id EID2 (key_of x20)) EID b1 [] (pk_of x20) [])))
  = Err IdentifierBadComposition.
Proof. vm_compute. reflexivity. Qed.

Print Assumptions C15_vote_acceptance_rule.
Print Assumptions C15_first_failing_check_decides.
Print Assumptions C15_authentication_message_injective.
Print Assumptions C16_attached_authentications_verify_partial.
Print Assumptions C16_quorum_if_attached_partial.
Print Assumptions C16_quorum_refuted.
Print Assumptions C16_repeated_authentication_refuted.
Print Assumptions C17_contests_belong_to_ballot_partial.
Print Assumptions C17_one_entry_per_contest_refuted.
Print Assumptions C17_two_rows_of_one_voter_mixed_refuted.
Print Assumptions C18_first_16_bytes_differ_partial.
Print Assumptions C18_actual_collision_check_partial.
Print Assumptions C18_collision_refuted.
Print Assumptions C19_only_the_authority_ends_voting.
Print Assumptions C19_slot_closes_voting_partial.
Print Assumptions C19_other_elections_unaffected_partial.
Print Assumptions C19_accepted_end_closes_refuted.
Print Assumptions C19_other_election_affected_refuted.
Print Assumptions C20_slot_of_named_election_partial.
Print Assumptions C20_foreign_slots_refuted.
Print Assumptions C20_foreign_encryption_key_refuted.
