(** * Props_Decrypt: C25-C30, C32, C33 (decryption; panics). *)
From Verif Require Import Base BaseFacts Utf8 Cbor Ident BuildId IdentFacts Crypto Types Serde Store SpecStore StoreFacts Prost
  Validate ValidateFacts SpecValid ValidFacts ValidFacts2 ValidFacts3 SpecHist HistFacts SpecMix MixFacts
  SpecDecrypt DecryptFacts PanicFacts Toy Scene Props_Vote.
From Coq Require Import Strings.String ZifyBool ZifyNat ZifyN.
Open Scope list_scope.

Section Props.
  Context {C : Crypto}.

  (** ** C25 *)
  Theorem C25_partial_decryption_rule :
    forall dbg s L x t, holds s L -> s_tx x = XPartial t ->
    (validate dbg s x = Ok tt <-> signed_by (pd_public t) x /\ ok_partial L t).
  Proof.
    intros dbg s L x t H Hx. rewrite (validate_iff s L H), Hx. unfold s_id, s_type. rewrite Hx.
    cbn [tx_id tx_type tx_public ok_tx]. split.
    - intros (A & B & D). auto.
    - intros (B & D). split; [|split; [intros k Hk; congruence|exact D]].
      destruct D as (el & row & pk & _ & _ & -> & _). reflexivity.
  Qed.
  Theorem C25_after_recorded_voting_end :
    forall dbg p x q t, history dbg (p ++ x :: q) -> s_tx x = XPartial t ->
    exists y u, In y p /\ s_tx y = XVotingEnd u /\ s_id y = slot0 (pd_election t) TVotingEnd.
  Proof.
    intros dbg p x q t H Tx. pose proof (partial_after_end dbg p x q t H Tx) as O.
    apply hist_at in H as (H & _). exact (end_recorded dbg p _ H O).
  Qed.
  (** the share of each ciphertext is proven against the trustee's recorded key *)
  Theorem C25_one_proven_share_per_ciphertext :
    forall dbg l x t, history dbg l -> In x l -> s_tx x = XPartial t ->
    exists el row pk, at_id l (pd_election t) (XElection el) /\ lists_trustee el (pd_trustee t) (pd_public t)
      /\ at_id l (pubkey_build_id (pd_election t) (pd_trustee t)) (XPublicKey pk)
      /\ List.length (pd_shares t) = List.length row
      /\ forall i sh ct, nth_error (pd_shares t) i = Some sh -> nth_error row i = Some ct ->
           share_verify sh (kp_proof pk) ct = true.
  Proof.
    intros dbg l x t H Hx Tx. destruct (hist_accepted dbg l x H Hx) as (p & q & -> & Hp & _ & V).
    apply (partial_accepted dbg _ _ x t (stored_holds p) Tx) in V as (el & row & pk & A & B & _ & _ & _ & D & _ & _ & F).
    exists el, row, pk. apply (proj1 (at_id_stored dbg p _ _ Hp)) in A. apply (proj1 (at_id_stored dbg p _ _ Hp)) in D.
    split; [apply at_id_mono, A|]. split; [exact B|]. split; [apply at_id_mono, D|].
    split; [eapply Forall2_length; exact F|]. clear -F. induction F as [|a b la lb Hab _ IH]; intros i sh ct.
    - destruct i; discriminate.
    - destruct i as [|i]; cbn [nth_error]; [|apply IH]. intros E1 E2. injection E1 as <-. injection E2 as <-. exact Hab.
  Qed.

  (** ** C26 *)
  Theorem C26_decryption_rule :
    forall dbg s L x t, holds s L -> s_tx x = XDecryption t ->
    (validate dbg s x = Ok tt <-> ok_decryption sel_decode L t).
  Proof.
    intros dbg s L x t H Hx. rewrite (validate_iff s L H), Hx. unfold s_id, s_type. rewrite Hx.
    cbn [tx_id tx_type tx_public ok_tx]. split; [tauto|]. intros D. split; [|split; [discriminate|exact D]].
    destruct D as (el & row & pks & parts & _ & -> & _). reflexivity.
  Qed.
  (** the published selections are a function of store and slot: two accepted decryptions of the
      same slot listing the same trustees publish the same selections *)
  Theorem C26_result_is_determined :
    forall dbg s L x y t u, holds s L -> s_tx x = XDecryption t -> s_tx y = XDecryption u ->
    validate dbg s x = Ok tt -> validate dbg s y = Ok tt ->
    dc_election t = dc_election u -> dc_upstream t = dc_upstream u -> dc_contest t = dc_contest u ->
    dc_index t = dc_index u -> dc_trustees t = dc_trustees u -> dc_vote t = dc_vote u.
  Proof.
    intros dbg s L x y t u H Tx Ty Vx Vy E1 E2 E3 E4 E5.
    apply validate_ok in Vx as (_ & _ & Vx). apply validate_ok in Vy as (_ & _ & Vy).
    rewrite Tx in Vx. rewrite Ty in Vy. cbn [validate_tx] in Vx, Vy. unfold validate_decryption in Vx, Vy.
    rewrite E1, E2, E3, E4, E5 in Vx.
    repeat match type of Vx with
    | bind ?m _ = _ => let a := fresh "a" in let A := fresh "A" in apply bind_ok in Vx as (a & A & Vx)
    end.
    repeat match type of Vy with
    | bind ?m _ = _ => let a := fresh "b" in let A := fresh "B" in apply bind_ok in Vy as (a & A & Vy)
    end.
    apply fail_if_ok, negb_false_iff, sels_eqb_eq in Vx. apply fail_if_ok, negb_false_iff, sels_eqb_eq in Vy.
    subst.
    assert (K : forall E A (m : res E A) a b, m = Ok a -> m = Ok b -> a = b) by (intros; congruence).
    pose proof (K _ _ _ _ _ A0 B0). subst.
    pose proof (K _ _ _ _ _ A1 B1). subst. pose proof (K _ _ _ _ _ A2 B2). subst.
    pose proof (K _ _ _ _ _ A3 B3). subst. pose proof (K _ _ _ _ _ A4 B4). subst.
    exact (K _ _ _ _ _ A6 B6).
  Qed.
  (** in a history, a partial decryption used belongs to the same election, contest, trustee, and
      for mixes to the same batch, mix, mixing trustee and row; for votes it agrees on ten bytes of the key *)
  Theorem C26_partials_match_slot_partial :
    forall dbg l x t i p, history dbg l -> s_tx x = XDecryption t -> validate dbg (ms_store (ms_from l)) x = Ok tt ->
    In i (dc_trustees t) -> at_id l (partial_slot t i) (XPartial p) ->
    id_election (pd_election p) = id_election (dc_election t) /\ pd_contest p = dc_contest t /\ pd_trustee p = i
    /\ id_type (pd_upstream p) = id_type (dc_upstream t)
    /\ (id_type (dc_upstream t) = TMix -> pd_index p = dc_index t /\
          firstn 8 (skipn 4 (arr_l (id_unique (pd_upstream p)))) = firstn 8 (skipn 4 (arr_l (id_unique (dc_upstream t)))))
    /\ (id_type (dc_upstream t) = TVote ->
          firstn 10 (arr_l (id_unique (pd_upstream p))) = firstn 10 (arr_l (id_unique (dc_upstream t)))).
  Proof.
    intros dbg l x t i p H Tx V Hi Hat.
    apply (decryption_accepted dbg _ _ x t (stored_holds l) Tx) in V as (el & row & pks & parts & _ & _ & R & _).
    apply (slot_partial dbg l t i p H); [eapply row_at_type; exact R|exact Hat].
  Qed.

  (** ** C27 *)
  Theorem C27_quorum_of_different_trustees_partial :
    forall dbg l x t, threshold_quorum -> history dbg l -> s_tx x = XDecryption t ->
    validate dbg (ms_store (ms_from l)) x = Ok tt -> dc_vote t <> [] ->
    exists el is, at_id l (dc_election t) (XElection el) /\ NoDup is
      /\ (u8v (el_threshold el) <= N.of_nat (List.length is))%N
      /\ forall i, In i is -> In i (dc_trustees t)
           /\ exists p, at_id l (partial_slot t i) (XPartial p) /\ pd_trustee p = i.
  Proof. intros dbg l x t Q H Tx V Ne. exact (quorum_of_decryption dbg l x t Q H Tx V Ne). Qed.

  (** ** C28 *)
  Theorem C28_nothing_decrypted_before_end :
    forall dbg p x q t el, history dbg (p ++ x :: q) -> s_tx x = XDecryption t ->
    at_id p (dc_election t) (XElection el) -> el_threshold el <> x00 ->
    exists y u, In y p /\ s_tx y = XVotingEnd u /\ s_id y = slot0 (dc_election t) TVotingEnd.
  Proof.
    intros dbg p x q t el H Tx Hel Hk. pose proof (decryption_after_end dbg p x q t el H Tx Hel Hk) as O.
    apply hist_at in H as (H & _). exact (end_recorded dbg p _ H O).
  Qed.
  (** hence no vote of the election is recorded after a decryption *)
  Theorem C28_no_vote_after_decryption :
    forall dbg p x q t el, history dbg (p ++ x :: q) -> s_tx x = XDecryption t ->
    at_id p (dc_election t) (XElection el) -> el_threshold el <> x00 ->
    forall y, In y q -> ~ in_range (dc_election t) TVote y.
  Proof.
    intros dbg p x q t el H Tx Hel Hk y Hy. pose proof (decryption_after_end dbg p x q t el H Tx Hel Hk) as O.
    apply (no_vote_after_end dbg p (x :: q) (dc_election t) H O). right. exact Hy.
  Qed.

  (** ** C29: with a mixnet, only outputs of recorded mixes are partially decrypted *)
  Theorem C29_only_mix_outputs_partial :
    forall dbg l x t el, history dbg l -> In x l -> s_tx x = XPartial t ->
    at_id l (pd_election t) (XElection el) -> el_mix_config el <> None ->
    exists m m0 row, at_id l (pd_upstream t) (XMix m) /\ mx_contest m = pd_contest t /\ chain l m m0
      /\ nth_error (mx_out m) (N.to_nat (uv (pd_index t))) = Some row
      /\ List.length (pd_shares t) = List.length row.
  Proof.
    intros dbg l x t el H Hx Tx Hel Hm. destruct (hist_accepted dbg l x H Hx) as (p & q & E & Hp & _ & V).
    apply (partial_accepted dbg _ _ x t (stored_holds p) Tx) in V as (el' & row & pk & A & _ & _ & _ & R & _ & _ & _ & F).
    apply (proj1 (at_id_stored dbg p _ _ Hp)) in A. apply (at_id_mono _ (x :: q)) in A. rewrite <- E in A.
    pose proof (history_at_id_fun dbg l _ _ _ H Hel A) as K. injection K as <-.
    destruct R as [(_ & R & _)|(_ & _ & m & M1 & M2 & _ & M3)]; [congruence|].
    apply (proj1 (at_id_stored dbg p _ _ Hp)) in M1. apply (at_id_mono _ (x :: q)) in M1. rewrite <- E in M1.
    pose proof M1 as (y & Hy & Ey & Ty).
    destruct (mix_chain dbg l H m) as (m0 & Hc).
    { exists y. split; [exact Hy|]. split; [|exact Ty]. unfold s_id. rewrite Ty. reflexivity. }
    exists m, m0, row. repeat split; auto. eapply Forall2_length; exact F.
  Qed.

  (** ** C30: the election part of the upstream identifier decides *)
  Theorem C30_upstream_election_partial :
    forall dbg l x t, history dbg l -> In x l -> s_tx x = XPartial t ->
    exists y, In y l /\ s_id y = pd_upstream t
      /\ id_election (tx_election (s_tx y)) = id_election (pd_upstream t)
      /\ (id_election (pd_upstream t) = id_election (pd_election t) ->
          id_election (tx_election (s_tx y)) = id_election (pd_election t)).
  Proof.
    intros dbg l x t H Hx Tx. destruct (hist_accepted dbg l x H Hx) as (p & q & E & Hp & _ & V).
    apply (partial_accepted dbg _ _ x t (stored_holds p) Tx) in V as (el' & row & pk & _ & _ & _ & _ & R & _).
    assert (G : exists y, In y p /\ s_id y = pd_upstream t /\ (s_type y = TVote \/ s_type y = TMix)).
    { destruct R as [(_ & _ & _ & v & ev & R & _)|(_ & _ & m & R & _)];
        destruct (proj1 (at_id_stored dbg p _ _ Hp) R) as (y & Hy & Ey & Ty); exists y; unfold s_type; rewrite Ty; auto. }
    destruct G as (y & Hy & Ey & Ky). destruct (hist_accepted dbg p y Hp Hy) as (a & b & _ & _ & _ & Vy).
    pose proof (C20_slot_of_named_election_partial dbg _ _ y (stored_holds a) Vy) as S. unfold s_type in Ky.
    assert (S' : id_election (s_id y) = id_election (tx_election (s_tx y))) by (apply S; destruct Ky as [-> | ->]; exact I).
    exists y. split; [rewrite E; apply in_or_app; left; exact Hy|]. split; [exact Ey|].
    rewrite <- S', Ey. auto.
  Qed.

  (** ** C32 *)
  Definition addressable (s : Store) (el : ElectionTx) (up : Identifier) (c : u32) (i : u16) : Prop :=
    exists row, encrypted_vote s up i c (el_mix_config el) = Ok row.
  Theorem C32_rows_addressable_partial :
    forall s L el up m, holds s L -> id_type up = TMix -> at_id L up (XMix m) -> el_mix_config el <> None ->
    (N.of_nat (List.length (mx_out m)) < 65536)%N ->
    forall i, (uv i < N.of_nat (List.length (mx_out m)))%N -> addressable s el up (mx_contest m) i.
  Proof.
    intros s L el up m H Hu Hm Hc Hn i Hi.
    destruct (nth_error (mx_out m) (N.to_nat (uv i))) as [row|] eqn:E.
    - exists row. apply (encrypted_vote_iff s L H). right. split; [exact Hu|]. split; [exact Hc|]. exists m.
      split; [exact Hm|]. split; [reflexivity|]. split; [rewrite N.mod_small; assumption|exact E].
    - exfalso. apply nth_error_None in E. lia.
  Qed.
  (** from 65536 rows on, some row is refused *)
  Theorem C32_all_rows_iff_partial :
    forall s L el up m, holds s L -> id_type up = TMix -> at_id L up (XMix m) -> el_mix_config el <> None ->
    ((forall n, (n < List.length (mx_out m))%nat -> exists i, uv i = N.of_nat n /\ addressable s el up (mx_contest m) i)
     <-> (N.of_nat (List.length (mx_out m)) < 65536)%N).
  Proof.
    intros s L el up m H Hu Hm Hc. split.
    - intros G. destruct (N.lt_ge_cases (N.of_nat (List.length (mx_out m))) 65536) as [Hlt|Hge]; [exact Hlt|exfalso].
      destruct (G 0) as (i0 & Z0 & (row0 & R0)); [lia|]. destruct (G (N.to_nat 65535)) as (i & Zi & (row & R)); [lia|].
      apply (encrypted_vote_iff s L H) in R. destruct R as [(A & _)|(_ & _ & m' & M1 & _ & M2 & _)]; [congruence|].
      pose proof (at_id_fun s L H _ _ _ Hm M1) as K. injection K as <-.
      assert (N.of_nat (List.length (mx_out m)) mod 65536 < 65536)%N by (apply N.mod_lt; discriminate). lia.
    - intros Hn n Hlt. exists (u_of 2 (N.of_nat n)).
      assert (E : uv (u_of 2 (N.of_nat n)) = N.of_nat n).
      { unfold u_of. cbn [uv]. apply N.mod_small. change (pow256 2) with 65536%N. lia. }
      split; [exact E|]. apply (C32_rows_addressable_partial s L); auto. rewrite E. lia.
  Qed.
  (** with exactly 65536 rows no row at all can be decrypted *)
  Theorem C32_no_row_of_65536_partial :
    forall s L el up m, holds s L -> id_type up = TMix -> at_id L up (XMix m) ->
    N.of_nat (List.length (mx_out m)) = 65536%N ->
    forall i, ~ addressable s el up (mx_contest m) i.
  Proof.
    intros s L el up m H Hu Hm Hn i (row & R). apply (encrypted_vote_iff s L H) in R.
    destruct R as [(A & _)|(_ & _ & m' & M1 & _ & M2 & _)]; [congruence|].
    pose proof (at_id_fun s L H _ _ _ Hm M1) as K. injection K as <-. rewrite Hn in M2.
    change (65536 mod 65536)%N with 0%N in M2. lia.
  Qed.

  (** ** C33: all causes of panics *)
  Theorem C33_panics_have_listed_causes_partial :
    forall dbg l x p, history dbg l -> validate dbg (ms_store (ms_from l)) x = Panic p ->
    panic_cause dbg (stored l) x.
  Proof. intros dbg l x p H V. exact (panics_have_causes dbg l H x p V). Qed.
  (** so seven of the ten types never panic, whatever the history *)
  Theorem C33_other_types_never_panic_partial :
    forall dbg l x p, history dbg l ->
    match tx_type (s_tx x) with TVote | TMix | TDecryption => False | _ => True end ->
    validate dbg (ms_store (ms_from l)) x <> Panic p.
  Proof.
    intros dbg l x p H T V. apply (panics_have_causes dbg l H x p) in V.
    destruct V as [t el a pk E|t y E|t el E|t el row i q E]; rewrite E in T; exact T.
  Qed.
End Props.

(** ** Examples and counterexamples *)
#[local] Existing Instance Toy.

Definition end_plain := setup None ++ voting ++ [votingend].
Example C25_example :
  let go := validate true (ms_store (ms_from end_plain)) in
  go (partial x0a x01 v20 0 [enc (sel (lit "yes")) 32]) = Ok tt
  /\ go (partial x0a x01 v20 0 []) = Err PartialDecryptionProofFailed
  /\ go (partial x0a x01 v20 0 [enc (sel (lit "no")) 32]) = Err PartialDecryptionProofFailed
  /\ go (partial x0b x01 v20 0 [enc (sel (lit "yes")) 32]) = Err (TrusteeDoesNotExist x01)
  /\ validate true (ms_store (ms_from (setup None ++ voting))) (partial x0a x01 v20 0 [enc (sel (lit "yes")) 32])
     = Err MisingVotingEndTransaction.
Proof. repeat split; vm_compute; reflexivity. Qed.
Definition dec_pre := end_plain ++
  [partial x0a x01 v20 0 [enc (sel (lit "yes")) 32]; partial x0b x02 v20 0 [enc (sel (lit "yes")) 32]].
Example C26_example :
  let go := validate true (ms_store (ms_from dec_pre)) in
  go (decryption v20 0 [x01; x02] [sel (lit "yes")]) = Ok tt
  /\ go (decryption v20 0 [x01; x02] [sel (lit "no")]) = Err VoteDecryptionMismatch
  /\ go (decryption v20 0 [x01] [sel (lit "yes")]) = Err (NotEnoughShares 2 1)
  /\ go (decryption v20 0 [x01; x01] [sel (lit "yes")]) = Err VoteDecryptionFailed.
Proof. repeat split; vm_compute; reflexivity. Qed.

(** the toy instance satisfies the quorum law *)
Lemma distinct_nodup l : distinct l = List.length (nodup Byte.byte_eq_dec l).
Proof.
  induction l as [|x l IH]; [reflexivity|]. cbn [distinct nodup]. rewrite IH.
  destruct (in_dec Byte.byte_eq_dec x l) as [I|N].
  - assert (existsb (Byte.eqb x) l = true) as -> by (apply existsb_exists; exists x; split; [exact I|apply byte_eqb_refl]).
    reflexivity.
  - destruct (existsb (Byte.eqb x) l) eqn:E; [|reflexivity]. exfalso. apply N.
    apply existsb_exists in E as (y & Hy & E). apply byte_eqb_eq in E. congruence.
Qed.
Lemma to_nat_le n m : (N.to_nat n <= m)%nat -> (n <= N.of_nat m)%N.
Proof. lia. Qed.
Example C27_toy_quorum : threshold_quorum.
Proof.
  intros k ct l m H. unfold threshold_decrypt, Toy in H. destruct (_ && _) eqn:E in H; [|discriminate]. apply andb_prop in E as [E _].
  apply Nat.leb_le in E. rewrite distinct_nodup in E.
  exists (nodup Byte.byte_eq_dec (map (fun p => fst (fst p)) l)). split; [apply NoDup_nodup|].
  split; [apply to_nat_le; exact E|].
  intros i Hi. apply nodup_In in Hi. exact Hi.
Qed.
(** C27 refuted: threshold 2, one trustee listed twice, one partial decryption recorded (the row is empty) *)
Definition vote_empty : STx :=
  sgn x20 (XVote (mk_vote v20 EID b1 [mk_encvote (n32 0) []] (pk_of x20) [authn x20])).
Theorem C27_repeated_trustee_refuted :
  exists l x t el, history true l /\ s_tx x = XDecryption t /\ validate true (ms_store (ms_from l)) x = Ok tt
    /\ at_id l (dc_election t) (XElection el) /\ el_threshold el = x02
    /\ forall i p, at_id l (partial_slot t i) (XPartial p) -> i = x01.
Proof.
  set (l := setup None ++ [vote_empty; votingend; partial x0a x01 v20 0 []]).
  assert (Hl : history true l) by (apply run_history; vm_compute; reflexivity).
  exists l, (decryption v20 0 [x01; x01] []). eexists. exists (election None).
  split; [exact Hl|]. split; [reflexivity|]. split; [vm_compute; reflexivity|].
  split; [eexists; split; [left; reflexivity|split; reflexivity]|]. split; [reflexivity|].
  intros i p (x & Hx & Ex & Tx).
  repeat (destruct Hx as [<-|Hx]; [try discriminate Tx|]); [|destruct Hx].
  apply (f_equal (fun j => nth 15 (arr_l (id_unique j)) x00)) in Ex. symmetry. exact Ex.
Qed.

(** C26 refuted: a decryption of vote B accepted on partial decryptions made for vote A *)
Definition encA : Ciphertext := enc (sel (lit "yes")) 1.
Definition idA := vote_build_id EID keyA.
Definition idB := vote_build_id EID keyB.
Theorem C26_partials_of_other_vote_refuted :
  exists l x t, history true l /\ s_tx x = XDecryption t /\ validate true (ms_store (ms_from l)) x = Ok tt
    /\ forall i p, at_id l i (XPartial p) -> pd_upstream p <> dc_upstream t.
Proof.
  set (l := setup None ++ [vote_of_key keyA; vote_of_key keyB; votingend;
                           partial x0a x01 idA 0 [encA]; partial x0b x02 idA 0 [encA]]).
  assert (Hl : history true l) by (apply run_history; vm_compute; reflexivity).
  exists l, (decryption idB 0 [x01; x02] [sel (lit "yes")]). eexists.
  split; [exact Hl|]. split; [reflexivity|]. split; [vm_compute; reflexivity|].
  intros i p (x & Hx & Ex & Tx).
  repeat (destruct Hx as [<-|Hx]; [try discriminate Tx|]); [| |destruct Hx];
    injection Tx as <-; intros K; apply (f_equal id_to_bytes) in K; vm_compute in K; discriminate.
Qed.

(** C28: threshold zero elections fall outside the hypothesis for a reason *)
Example C28_example :
  history true scene_plain /\ el_threshold (election None) <> x00
  /\ nth_error scene_plain 15 = Some (decryption v20 0 [x01; x02] [sel (lit "yes")]).
Proof. split; [apply run_history; vm_compute; reflexivity|]. split; [discriminate|reflexivity]. Qed.
Definition election0 : ElectionTx :=
  mk_election EID (pk_of x01) [T x0a x01] x00 [] x00 None [ballot1] [contest0] no_props.
Example C28_threshold_zero :
  let pre := [sgn x01 (XElection election0); pubkey x0a x01; enckey;
     sgn x20 (XVote (mk_vote v20 EID b1 [mk_encvote (n32 0) [enc (sel (lit "yes")) 1]] (pk_of x20) []))] in
  history true (pre ++ [decryption v20 0 [] [sel (lit "yes")]]).
Proof. cbn zeta. apply run_history. vm_compute. reflexivity. Qed.

(** C29 refuted: with threshold 2 and a mixnet, a row that went through only one mix is decrypted *)
Definition m1 : Identifier := s_id mix1.
Theorem C29_intermediate_mix_decrypted_refuted :
  exists l t m el, history true l /\ In (decryption (mx_id m) 0 [x01; x02] [sel (lit "no")]) l
    /\ at_id l (partial_build_id EID (mx_id m) (n32 0) (n16 0) x01) (XPartial t)
    /\ at_id l (pd_upstream t) (XMix m) /\ at_id l (pd_election t) (XElection el)
    /\ el_mix_config el <> None
    /\ (u8v (mx_index m) + 1)%N <> u8v (el_threshold el).
Proof.
  set (l := setup (Some mixcfg) ++ voting ++ [votingend; mix1;
     partial x0a x01 m1 0 [enc (sel (lit "no")) 101]; partial x0b x02 m1 0 [enc (sel (lit "no")) 101];
     decryption m1 0 [x01; x02] [sel (lit "no")]]).
  exists l. eexists. exists (mix_of x0a x01 x00 None VIDS rows1), (election (Some mixcfg)).
  split; [apply run_history; vm_compute; reflexivity|]. split; [do 14 right; left; reflexivity|].
  split; [eexists; split; [do 12 right; left; reflexivity|split; reflexivity]|].
  split; [eexists; split; [do 11 right; left; reflexivity|split; reflexivity]|].
  split; [eexists; split; [left; reflexivity|split; reflexivity]|].
  split; discriminate.
Qed.

(** C30 refuted: trustees of election A decrypt, in A, a vote cast in election B *)
Definition voteB : STx :=
  sgn x30 (XVote (mk_vote (vote_build_id EID2 (key_of x30)) EID2 b1
     [mk_encvote (n32 0) [enc (sel (lit "no")) 5]] (pk_of x30) [])).
Definition electionB_setup : list STx :=
  [ electionB_tx;
    sgn x0c (XPublicKey (mk_pubkey (pubkey_build_id EID2 x01) EID2 x01 (pk_of x0c) evil_key (proof_of x01)));
    sgn x02 (XEncryptionKey (mk_enckey (enckey_build_id EID2) EID2 (pk_of x02) evil_key));
    voteB ].
Theorem C30_foreign_upstream_refuted :
  exists l x t v, history true l /\ In x l /\ s_tx x = XPartial t
    /\ at_id l (pd_upstream t) (XVote v) /\ id_election (vt_election v) <> id_election (pd_election t)
    /\ occupied l (decryption_build_id (pd_election t) (pd_upstream t) (pd_contest t) (pd_index t)).
Proof.
  set (vb := vote_build_id EID2 (key_of x30)).
  set (l := setup None ++ [votingend] ++ electionB_setup ++
    [partial x0a x01 vb 0 [enc (sel (lit "no")) 5]; partial x0b x02 vb 0 [enc (sel (lit "no")) 5];
     decryption vb 0 [x01; x02] [sel (lit "no")]]).
  exists l, (partial x0a x01 vb 0 [enc (sel (lit "no")) 5]). eexists. eexists.
  split; [apply run_history; vm_compute; reflexivity|]. split; [do 13 right; left; reflexivity|].
  split; [reflexivity|]. split; [eexists; split; [do 12 right; left; reflexivity|split; reflexivity]|].
  split; [vm_compute; discriminate|]. eexists. split; [do 15 right; left; reflexivity|reflexivity].
Qed.

(** C32: the hypotheses of the refutation are met by a store *)
Definition big_mix : MixTx :=
  mix_of x0a x01 x00 None [] (repeat [enc (sel (lit "yes")) 1] (N.to_nat 65536)).
Example C32_example :
  exists s L, holds s L /\ at_id L (mx_id big_mix) (XMix big_mix) /\ id_type (mx_id big_mix) = TMix
    /\ N.of_nat (List.length (mx_out big_mix)) = 65536%N.
Proof.
  exists (ms_store (ms_from [sgn x0a (XMix big_mix)])), (stored [sgn x0a (XMix big_mix)]).
  split; [apply stored_holds|]. split.
  - eexists. split; [apply stored_in; [repeat constructor; intros []|left; reflexivity]|]. split; reflexivity.
  - split; [reflexivity|]. change (mx_out big_mix) with (repeat [enc (sel (lit "yes")) 1] (N.to_nat 65536)).
    rewrite repeat_length. apply N2Nat.id.
Qed.

Theorem C32_big_mix_refuted :
  exists s L el up m, holds s L /\ id_type up = TMix /\ at_id L up (XMix m) /\ el_mix_config el <> None
    /\ N.of_nat (List.length (mx_out m)) = 65536%N
    /\ forall i, ~ addressable s el up (mx_contest m) i.
Proof.
  destruct C32_example as (s & L & H & A & T & N). exists s, L, (election (Some mixcfg)), (mx_id big_mix), big_mix.
  split; [exact H|]. split; [exact T|]. split; [exact A|]. split; [discriminate|]. split; [exact N|].
  exact (C32_no_row_of_65536_partial s L _ _ big_mix H T A N).
Qed.

(** C33 refuted, one witness per cause *)
Theorem C33_prev_not_a_mix_refuted :
  exists l x, history true l /\ history false l
    /\ validate true (ms_store (ms_from l)) x = Panic PWrongType
    /\ validate false (ms_store (ms_from l)) x = Panic PWrongType.
Proof.
  exists (setup (Some mixcfg) ++ voting ++ [votingend]), (sgn x0b (XMix (mix_of x0b x02 x01 (Some EID) VIDS rows2))).
  split; [apply run_history; vm_compute; reflexivity|]. split; [apply run_history; vm_compute; reflexivity|].
  split; vm_compute; reflexivity.
Qed.
Definition election_t0 : ElectionTx :=
  mk_election EID (pk_of x01) [T x0a x00] x01 [auth1] x01 (Some mixcfg) [ballot1] [contest0] no_props.
Theorem C33_trustee_zero_refuted :
  exists l x, history true l /\ validate true (ms_store (ms_from l)) x = Panic POverflow.
Proof.
  exists [sgn x01 (XElection election_t0)], (sgn x0a (XMix (mix_of x0a x00 xff None [] []))).
  split; [apply run_history; vm_compute; reflexivity|vm_compute; reflexivity].
Qed.
Definition auth_bad : Authenticator :=
  mk_authenticator UID (@mk_sub _ (nodup_keys rs_eqb) [(b1, any [])] eq_refl).
Definition election_badkey : ElectionTx :=
  mk_election EID (pk_of x01) [T x0a x01; T x0b x02] x02 [auth_bad] x01 None [ballot1] [contest0] no_props.
Theorem C33_hash_failure_refuted :
  exists l x, history true l /\ history false l
    /\ validate true (ms_store (ms_from l)) x = Panic PExpect
    /\ validate false (ms_store (ms_from l)) x = Panic PExpect.
Proof.
  exists (sgn x01 (XElection election_badkey) :: tl (setup None)), (vote x20 (lit "yes")).
  split; [apply run_history; vm_compute; reflexivity|]. split; [apply run_history; vm_compute; reflexivity|].
  split; vm_compute; reflexivity.
Qed.
Definition vote_two_cts : STx :=
  let pk : PublicKey := any keyB in
  let t := XVote (mk_vote idB EID b1 [mk_encvote (n32 0) [encA; encA]] pk
              [mk_authentication UID ([x99] ++ toy_hash (auth_pack EID b1 pk))]) in
  mk_stx t (ed_sign keyB (tx_bytes t)).
Theorem C33_short_partial_refuted :
  exists l x, history true l /\ history false l
    /\ validate true (ms_store (ms_from l)) x = Panic PIndex
    /\ validate false (ms_store (ms_from l)) x = Panic PIndex.
Proof.
  exists (setup None ++ [vote_of_key keyA; vote_two_cts; votingend;
            partial x0a x01 idA 0 [encA]; partial x0b x02 idA 0 [encA]]),
         (decryption idB 0 [x01; x02] [sel (lit "yes"); sel (lit "yes")]).
  split; [apply run_history; vm_compute; reflexivity|]. split; [apply run_history; vm_compute; reflexivity|].
  split; vm_compute; reflexivity.
Qed.

Print Assumptions C25_partial_decryption_rule.
Print Assumptions C25_after_recorded_voting_end.
Print Assumptions C25_one_proven_share_per_ciphertext.
Print Assumptions C26_decryption_rule.
Print Assumptions C26_result_is_determined.
Print Assumptions C26_partials_match_slot_partial.
Print Assumptions C26_partials_of_other_vote_refuted.
Print Assumptions C27_quorum_of_different_trustees_partial.
Print Assumptions C27_repeated_trustee_refuted.
Print Assumptions C28_nothing_decrypted_before_end.
Print Assumptions C28_no_vote_after_decryption.
Print Assumptions C29_only_mix_outputs_partial.
Print Assumptions C29_intermediate_mix_decrypted_refuted.
Print Assumptions C30_upstream_election_partial.
Print Assumptions C30_foreign_upstream_refuted.
Print Assumptions C32_rows_addressable_partial.
Print Assumptions C32_all_rows_iff_partial.
Print Assumptions C32_no_row_of_65536_partial.
Print Assumptions C32_big_mix_refuted.
Print Assumptions C33_panics_have_listed_causes_partial.
Print Assumptions C33_other_types_never_panic_partial.
Print Assumptions C33_prev_not_a_mix_refuted.
Print Assumptions C33_trustee_zero_refuted.
Print Assumptions C33_hash_failure_refuted.
Print Assumptions C33_short_partial_refuted.
