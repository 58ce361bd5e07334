(** * Props_Recorded: C100, the elections recorded in the repository.  [test_all_elections] (tests.rs 1063-1109) reads them. *)
From Verif Require Import Base BaseFacts Hex Utf8 Cbor CborFacts Value Ident Crypto Types Serde SerdeFacts Json SpecJson JsonTx SpecWire WireFacts
  SpecDoc DocFacts Props_Wire SpecRecorded Recorded Toy.
From Coq Require Strings.String.
Import String.StringSyntax.
Open Scope list_scope.

Section Props.
  Context {C : Crypto}.

  Lemma once_in k m v w : once k m v -> In (CText k, w) m -> v = w.
  Proof.
    intros (m1 & m2 & -> & A) I. apply in_app_or in I as [I|[I|I]].
    - destruct (A w). apply in_or_app. auto.
    - congruence.
    - destruct (A w). apply in_or_app. auto.
  Qed.
  Lemma rec_field fs m w : means (Rec fs) (CMap m) w -> forall k a, In (k, Must, a) fs -> exists v u, once k m v /\ means a v u.
  Proof.
    intros (m0 & m' & E & _ & G) k a I. injection E as <-. revert m' G.
    induction fs as [|[[k' o] b] fs IH]; intros m' G; [destruct I|]. destruct G as (h & m1 & _ & F & G).
    destruct I as [I|I]; [injection I as -> -> ->|exact (IH I _ G)]. destruct F as (v & u & O & M & _). eauto.
  Qed.
  Lemma no_nameless v w : nameless v -> ~ means (signed TElection) v w.
  Proof.
    intros (e & l & c & (m & -> & Ie) & (n & -> & Il) & Ic & Ab) M.
    destruct (rec_field _ _ _ M (name "tx") (tx_shape TElection) (or_intror (or_introl eq_refl))) as (v & u & O & X).
    rewrite (once_in _ _ _ _ O Ie) in X. clear O. cbn [tx_shape] in X.
    destruct (rec_field _ _ _ X (name "contests") (Seq contest) ltac:(do 8 right; left; reflexivity)) as (v' & u' & O & Y).
    rewrite (once_in _ _ _ _ O Il) in Y. destruct Y as (l1 & l2 & E & _ & F). injection E as <-.
    apply in_split in Ic as (a & b & ->). apply Forall2_app_inv_l in F as (a' & b' & _ & F & _). inversion F as [|x y xs ys Z _]; subst.
    destruct (rec_field _ _ _ Z (name "id") Text (or_introl eq_refl)) as (i & z & (m1 & m2 & -> & _) & _).
    apply (Ab i). apply in_or_app. right. left. reflexivity.
  Qed.
  (** C100: no election of that form is read, from JSON or from CBOR *)
  Theorem C100_nameless_refused :
    (forall t v, document t v -> nameless v -> forall x, stx_from_json t = Ok x -> s_type x <> TElection)
    /\ forall p v, item 127 p v -> nameless v -> forall x, stx_from_bytes p = Ok x -> s_type x <> TElection.
  Proof.
    split.
    - intros t v D N x H T. destruct (proj1 (C87_read t TElection (ser_stx x))) as (v' & D' & M); [eauto|].
      apply json_iff in D as (j & E & <-), D' as (j' & E' & <-). rewrite E in E'. injection E' as <-. exact (no_nameless _ _ N M).
    - intros p v D N x H T. destruct (proj1 (C86_read p TElection (ser_stx x))) as (v' & D' & M); [eauto|].
      apply cbor_iff in D, D'. rewrite D in D'. injection D' as <-. exact (no_nameless _ _ N M).
  Qed.
End Props.

(** ** The recorded transactions *)
(* the library's types taken as they come: the recorded values belong to the real library, which is not modelled *)
Definition Trust : Crypto := {|
  ed_pk_ok := anyb; ed_sig_ok := anyb; ed_secret := arr 32; ed_public := fun sk => any sk; ed_sign := fun sk m => any (toy_sign sk m);
  ed_verify := fun _ _ _ => true; rsa_pk_ok := anyb; rsa_hash := fun _ m => Some m; rsa_verify := fun _ _ _ => true;
  ct_ok := anyb; eg_pk_ok := anyb; commit_ok := anyb; pkproof_ok := anyb; dshare_ok := anyb; shproof_ok := anyb;
  share_verify := fun _ _ _ => true; threshold_decrypt := fun _ _ _ => None; shuffle_verify := fun _ _ _ _ _ _ => true |}.
Section Case.
  Let C := Trust.
  Existing Instance C.
  Definition reads_as (t : TxType) (l : bytes) : bool :=
    match stx_from_json l with Ok x => tt_eqb (s_type x) t | _ => false end.
  Definition refuses (l : bytes) : bool := match stx_from_json l with Err _ => true | _ => false end.
  Lemma refuses_err l : refuses l = true -> stx_from_json l = Err tt.
  Proof. unfold refuses. generalize (stx_from_json l). intros [x|[]|p] H; try discriminate. reflexivity. Qed.
  Lemma reads_ok t l : reads_as t l = true -> exists x, stx_from_json l = Ok x /\ s_type x = t.
  Proof. unfold reads_as. generalize (stx_from_json l). intros [x|e|p] H; try discriminate. exists x. split; [reflexivity|]. apply IdentFacts.tt_eqb_eq, H. Qed.
  Definition at_key (k : rstring) (v : cval) : cval :=
    match v with CMap m => match find (fun p => match fst p with CText s => rs_eqb s k | _ => false end) m with Some (_, w) => w | None => CNull end | _ => CNull end.
  Definition lacks (v : cval) : bool :=
    match at_key (name "contests") (at_key (name "tx") v) with
    | CArr (CMap c :: _) => forallb (fun p => match fst p with CText s => negb (rs_eqb s (name "id")) | _ => true end) c
    | _ => false
    end.
  Lemma at_key_field k v w : at_key k v = w -> w <> CNull -> holds_field v k w.
  Proof.
    intros E N. destruct v; try (cbn in E; congruence). cbn [at_key] in E. destruct (find _ l) as [[a b]|] eqn:F; [|congruence]. subst b.
    apply find_some in F as [I F]. cbn [fst] in F. destruct a; try discriminate. apply rs_eqb_eq in F. subst s. exists l. auto.
  Qed.
  Lemma lacks_nameless v : lacks v = true -> nameless v.
  Proof.
    unfold lacks. intros H. destruct (at_key (name "contests") (at_key (name "tx") v)) as [| | | |l| | | | |] eqn:E; try discriminate.
    destruct l as [|[| | | | |c| | | |] l]; try discriminate. exists (at_key (name "tx") v), (CMap c :: l), c. split; [|split; [|split]].
    - apply at_key_field; [reflexivity|]. intros Z. rewrite Z in E. discriminate E.
    - apply at_key_field; [exact E|discriminate].
    - left. reflexivity.
    - intros w I. rewrite forallb_forall in H. specialize (H _ I). cbn [fst] in H. apply negb_true_iff in H.
      rewrite (proj2 (rs_eqb_eq (name "id") (name "id")) eq_refl) in H. discriminate.
  Qed.
  (** the recorded election with an [id] in its contest *)
  Fixpoint replace (f : nat) (a b l : bytes) : bytes :=
    match f, l with
    | S f, c :: r => if bytes_eqb (firstn (length a) l) a then b ++ skipn (length a) l else c :: replace f a b r
    | _, _ => l
    end.
  Definition mended : bytes :=
    replace (length rec_election) (q (sv (name "'contests':[{'index'"))) (q (sv (name "'contests':[{'id':'c','index'"))) rec_election.
  Lemma C100_election_case :
    refuses rec_election && match jparse rec_election with Some j => lacks (content j) | None => false end && reads_as TElection mended = true.
  Proof. vm_compute. reflexivity. Qed.
  (** C100, refuted: a recorded election is not read; with an [id] in its contest it is *)
  Theorem C100_recorded_refuted : exists t v, document t v /\ nameless v /\ stx_from_json t = Err tt.
  Proof.
    pose proof C100_election_case as H. apply andb_prop in H as [H _]. apply andb_prop in H as [R L]. exists rec_election.
    destruct (jparse rec_election) as [j|] eqn:E; [|discriminate]. exists (content j). split; [apply json_iff; eauto|]. split; [apply lacks_nameless, L|].
    exact (refuses_err _ R).
  Qed.
  Example C100_mended : exists x, stx_from_json mended = Ok x /\ s_type x = TElection.
  Proof.
    pose proof C100_election_case as H. apply andb_prop in H as [_ H]. exact (reads_ok _ _ H).
  Qed.
  (** the other types, as recorded *)
  Example C100_others :
    reads_as TKeyGenCommitment rec_key_gen_commitment && reads_as TKeyGenShare rec_key_gen_share && reads_as TKeyGenPublicKey rec_key_gen_public_key
    && reads_as TEncryptionKey rec_encryption_key && reads_as TVote rec_vote && reads_as TVotingEnd rec_voting_end
    && reads_as TMix rec_mix && reads_as TPartialDecryption rec_partial_decryption && reads_as TDecryption rec_decryption = true.
  Proof. vm_compute. reflexivity. Qed.
End Case.

Print Assumptions C100_nameless_refused.
Print Assumptions C100_recorded_refuted.
