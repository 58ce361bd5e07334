(** * Props_Ledger: C31, C34-C39, C59, C60 (the Exonum ledger and its listing). *)
From Verif Require Import Base BaseFacts Hex HexFacts Utf8 Cbor Ident BuildId IdentFacts Crypto Types Serde Store
  SpecStore StoreFacts Prost Validate ValidateFacts SpecValid ValidFacts ValidFacts2 ValidFacts3 SpecHist HistFacts SpecMix MixFacts
  Exonum SpecLedger LedgerFacts Api ApiFacts Toy Scene Props_Store Props_Vote.
From Coq Require Import Strings.String Sorting.Sorted.
Open Scope list_scope.

Section Props.
  Context {C : Crypto}.

  (** ** C34 *)
  Theorem C34_append_only :
    forall dbg L l k e, recorded L k e -> recorded (run dbg L l) k e.
  Proof. intros dbg L l k e H. apply run_incl, H. Qed.
  Theorem C34_never_replaced :
    forall dbg L l k e e', reachable dbg L -> recorded L k e -> recorded (run dbg L l) k e' -> e' = e.
  Proof.
    intros dbg L l k e e' R H H'. apply (run_incl dbg l) in H.
    pose proof (reach_lwf _ _ (run_reach dbg l L R)) as W.
    apply (bt_get_in _ _ _ (lw_sorted _ W)) in H. apply (bt_get_in _ _ _ (lw_sorted _ W)) in H'. congruence.
  Qed.

  (** ** C35 *)
  Theorem C35_acceptance_rule :
    forall dbg L tx, reachable dbg L ->
    ((exists L', verify_and_store dbg L tx = Ok L') <->
     (forall e, ~ recorded L (sv (en_id tx)) e) /\ exists x, carries tx x /\ validate dbg (ex_store L) x = Ok tt).
  Proof.
    intros dbg L tx R. pose proof (lw_sorted _ (reach_lwf _ _ R)) as S. split.
    - intros (L' & V). apply store_ok in V as (G & X & _). split; [|exact X].
      intros e H. apply (bt_get_in _ _ _ S) in H. congruence.
    - intros (G & X). exists (bt_insert L (sv (en_id tx)) tx). apply store_ok. split; [|auto].
      destruct (bt_get L (sv (en_id tx))) as [e|] eqn:E; [|reflexivity].
      apply (bt_get_in _ _ _ S) in E. destruct (G e E).
  Qed.
  Theorem C35_used_key_refused :
    forall dbg L tx e, reachable dbg L -> recorded L (sv (en_id tx)) e ->
    verify_and_store dbg L tx = Err TransactionAlreadyExists /\ submit dbg L tx = L.
  Proof.
    intros dbg L tx e R H. apply (bt_get_in _ _ _ (lw_sorted _ (reach_lwf _ _ R))) in H.
    unfold submit, verify_and_store. rewrite H. split; reflexivity.
  Qed.
  Theorem C35_accepted_adds_exactly_one :
    forall dbg L tx L', verify_and_store dbg L tx = Ok L' ->
    forall k e, recorded L' k e <-> recorded L k e \/ (k = sv (en_id tx) /\ e = tx).
  Proof.
    intros dbg L tx L' V k e. apply store_ok in V as (G & _ & ->). unfold recorded. split.
    - intros H. apply bt_insert_in in H as [H|H]; [|auto]. injection H as -> ->. auto.
    - intros [H|[-> ->]]; [apply bt_insert_incl; assumption|apply bt_insert_has].
  Qed.
  Theorem C35_refused_changes_nothing :
    forall dbg L tx, (forall k, ~ (recorded (submit dbg L tx) k tx /\ ~ recorded L k tx)) -> submit dbg L tx = L.
  Proof.
    intros dbg L tx H. unfold submit in *. destruct (verify_and_store dbg L tx) as [L'| |] eqn:V; auto.
    exfalso. apply (H (sv (en_id tx))). pose proof V as V'. apply store_ok in V' as (G & _ & E). split.
    - apply (C35_accepted_adds_exactly_one _ _ _ _ V). auto.
    - intros K. clear -G K. unfold recorded in K. induction L as [|[k e] L IH]; [destruct K|].
      cbn [bt_get] in G. destruct (bytes_eqb (sv (en_id tx)) k) eqn:F; [discriminate|].
      destruct K as [K|K]; [|auto]. injection K as -> ->. rewrite bytes_eqb_refl in F. discriminate.
  Qed.

  (** ** C36: under the condition that envelopes are honest *)
  Theorem C36_own_identifier_partial :
    forall dbg envs, Forall honest envs ->
    forall k e, recorded (run dbg [] envs) k e -> exists x, carries e x /\ k = id_to_string (s_id x).
  Proof. intros dbg envs H k e R. destruct (honest_run0 dbg envs H) as (_ & HL & _). apply HL, R. Qed.
  Theorem C36_recorded_once_partial :
    forall dbg envs, Forall honest envs ->
    forall k e k' e' x, recorded (run dbg [] envs) k e -> recorded (run dbg [] envs) k' e' ->
      carries e x -> carries e' x -> k = k' /\ e = e'.
  Proof.
    intros dbg envs H k e k' e' x R R' D D'. destruct (honest_run0 dbg envs H) as (_ & HL & _ & W).
    destruct (HL _ _ R) as (y & Dy & ->). destruct (HL _ _ R') as (z & Dz & ->).
    assert (y = x) as -> by (unfold carries in *; congruence). assert (z = x) as -> by (unfold carries in *; congruence).
    split; [reflexivity|]. apply (bt_get_in _ _ _ (lw_sorted _ W)) in R. apply (bt_get_in _ _ _ (lw_sorted _ W)) in R'.
    congruence.
  Qed.
  (** whatever the envelopes: the key is the envelope's own, and the payload decodes *)
  Theorem C36_key_is_envelope_key_partial :
    forall dbg L k e, reachable dbg L -> recorded L k e -> k = sv (en_id e) /\ exists x, carries e x.
  Proof. intros dbg L k e R H. apply (lw_entry _ (reach_lwf _ _ R)), H. Qed.

  (** ** C31 *)
  Theorem C31_one_decryption_per_slot :
    forall dbg L l el up c i e e', reachable dbg L ->
    recorded L (id_to_string (decryption_build_id el up c i)) e ->
    recorded (run dbg L l) (id_to_string (decryption_build_id el up c i)) e' -> e' = e.
  Proof. intros dbg L l el up c i e e' R. apply C34_never_replaced, R. Qed.
  Theorem C31_one_decryption_in_history :
    forall dbg l x y t u, history dbg l -> In x l -> In y l -> s_tx x = XDecryption t -> s_tx y = XDecryption u ->
    id_election (dc_election t) = id_election (dc_election u) -> dc_upstream t = dc_upstream u ->
    dc_contest t = dc_contest u -> dc_index t = dc_index u -> x = y.
  Proof.
    intros dbg l x y t u H Hx Hy Tx Ty E1 E2 E3 E4.
    assert (G : forall z w, In z l -> s_tx z = XDecryption w ->
                s_id z = decryption_build_id (dc_election w) (dc_upstream w) (dc_contest w) (dc_index w)).
    { intros z w Hz Tz. destruct (hist_accepted dbg l z H Hz) as (p & q & _ & _ & _ & V).
      apply (validate_iff _ _ (stored_holds p)) in V as (_ & _ & V). rewrite Tz in V. cbn [ok_tx] in V.
      destruct V as (el & row & pks & parts & _ & E & _). unfold s_id. rewrite Tz. exact E. }
    apply (hist_unique dbg l x y H Hx Hy). rewrite (G x t Hx Tx), (G y u Hy Ty), E2, E3, E4.
    unfold decryption_build_id, id_new. rewrite E1. reflexivity.
  Qed.

  (** ** C37 *)
  Definition votes_in (L : Ledger) (e : Identifier) (k : bytes) (en : Env) : Prop :=
    recorded L k en /\ exists x v, carries en x /\ s_tx x = XVote v /\ id_election (vt_election v) = id_election e.
  (** whatever the envelopes, no vote naming the election is added *)
  Theorem C37_votes_frozen :
    forall dbg L l e en0, reachable dbg L -> recorded L (id_to_string (slot0 e TVotingEnd)) en0 ->
    forall k en, votes_in (run dbg L l) e k en <-> votes_in L e k en.
  Proof.
    intros dbg L l e en0 R E k en. split.
    2: { intros (A & B). split; [apply C34_append_only, A|exact B]. }
    revert L R E. induction l as [|tx l IH]; intros L R E; [auto|].
    intros H. apply (IH (submit dbg L tx)) in H; [|constructor; exact R|apply submit_incl, E].
    destruct H as (A & x & v & D & T & Ev). split; [|eauto]. revert A. unfold submit.
    destruct (verify_and_store dbg L tx) as [L'| |] eqn:V; auto. intros A.
    apply (C35_accepted_adds_exactly_one _ _ _ _ V) in A as [A|[-> ->]]; [exact A|exfalso].
    apply store_ok in V as (_ & (y & Dy & V) & _). assert (y = x) as -> by (unfold carries in *; congruence).
    apply validate_ok in V as (_ & _ & V). rewrite T in V. cbn [validate_tx] in V. unfold validate_vote in V.
    repeat match type of V with
    | bind _ _ = Ok _ => let a := fresh "a" in let A := fresh "A" in apply bind_ok in V as (a & A & V)
    end.
    assert (G : st_get (ex_store L) (id_new (vt_election v) TVotingEnd None) <> Ok None).
    { pose proof (reach_lwf _ _ R) as W. destruct (lw_entry _ W _ _ E) as (_ & z & Dz).
      replace (id_new (vt_election v) TVotingEnd None) with (slot0 e TVotingEnd)
        by (unfold slot0, id_new; rewrite Ev; reflexivity).
      change (st_get (ex_store L)) with (ex_get L). rewrite (ex_get_some _ _ _ _ W E Dz). discriminate. }
    destruct (st_get (ex_store L) (id_new (vt_election v) TVotingEnd None)) as [[z|]| |] eqn:X; [| |destruct e0|].
    - cbn [lift] in *. match goal with H : Ok (Some z) = Ok ?b |- _ => injection H as <- end.
      match goal with H : fail_if true VotingHasEnded = _ |- _ => discriminate H end.
    - congruence.
    - cbn [lift] in *. discriminate.
  Qed.
  (** with honest envelopes the vote range of the store is frozen too *)
  Theorem C37_vote_range_frozen_partial :
    forall dbg envs l e en0, Forall honest envs -> Forall honest l ->
    let L := run dbg [] envs in
    recorded L (id_to_string (slot0 e TVotingEnd)) en0 ->
    get_multiple (ex_store (run dbg L l)) e TVote = get_multiple (ex_store L) e TVote.
  Proof.
    intros dbg envs l e en0 H1 H2. cbn zeta. intros E.
    destruct (honest_run0 dbg envs H1) as (A & HL & D & W).
    destruct (honest_run dbg l H2 _ _ W HL D A) as (A' & HL' & D').
    assert (W' : lwf (run dbg (run dbg [] envs) l)) by (apply (reach_lwf dbg), run_reach, run_reach; constructor).
    rewrite (holds_multiple _ _ _ _ (honest_holds _ W HL)), (holds_multiple _ _ _ _ (honest_holds _ W' HL')).
    f_equal. rewrite D, D'. set (p := accepted dbg [] envs) in *. set (r := accepted dbg (run dbg [] envs) l) in *.
    assert (O : occupied p (slot0 e TVotingEnd)).
    { destruct (HL _ _ E) as (x & Dx & Ex). apply id_to_string_inj in Ex. exists x. split; [|auto].
      apply (hist_stored dbg p x A). rewrite <- D. apply decoded_in; auto. exists en0. rewrite <- Ex. auto. }
    apply asc_ext; [apply listed_asc, stored_asc|apply listed_asc, stored_asc|]. intros x. rewrite !listed_in.
    rewrite (hist_stored dbg _ x A), (hist_stored dbg _ x A'). split.
    - intros (X & Y & Z). split; [|auto]. apply in_app_or in X as [X|X]; [exact X|exfalso].
      exact (no_vote_after_end dbg p r e A' O x X (conj Y Z)).
    - intros (X & Y & Z). split; [|auto]. apply in_or_app. left. exact X.
  Qed.

  (** ** C38 *)
  Theorem C38_ledger_and_memory_agree_partial :
    forall dbg envs, Forall honest envs ->
    let L := run dbg [] envs in let m := ms_from (accepted dbg [] envs) in
    (forall i, st_get (ex_store L) i = st_get (ms_store m) i)
    /\ (forall a b, id_le a b -> st_range (ex_store L) a b = st_range (ms_store m) a b)
    /\ (forall dbg' x, validate dbg' (ex_store L) x = validate dbg' (ms_store m) x)
    /\ history dbg (accepted dbg [] envs).
  Proof.
    intros dbg envs H. cbn zeta. destruct (honest_run0 dbg envs H) as (A & HL & D & W).
    pose proof (honest_holds _ W HL) as HH. rewrite D in HH.
    assert (S : same_reads (ex_store (run dbg [] envs)) (ms_store (ms_from (accepted dbg [] envs))))
      by (apply (holds_same _ _ (stored (accepted dbg [] envs))); [exact HH|apply stored_holds]).
    split; [apply S|]. split; [apply S|]. split; [|exact A]. intros dbg' x. apply validate_same, S.
  Qed.
  (** the only difference: a reversed range panics in memory and is empty on the ledger *)
  Theorem C38_reversed_range_partial :
    forall L m a b, lwf L -> honest_ledger L -> ~ id_le a b ->
    st_range (ex_store L) a b = Ok [] /\ st_range (ms_store m) a b = Panic PRange.
  Proof.
    intros L m a b W H N. split.
    - change (st_range (ex_store L)) with (ex_range L). rewrite ex_range_between by assumption. f_equal.
      apply filter_nothing. intros x _. unfold id_le in N. rewrite !id_cmp_string in *.
      destruct (lex (id_to_string a) (id_to_string (s_id x))) eqn:E1;
      destruct (lex (id_to_string (s_id x)) (id_to_string b)) eqn:E2; cbn [andb]; try reflexivity; exfalso; apply N.
      all: assert (ble (id_to_string a) (id_to_string b)) as B; [|exact B].
      all: eapply (ble_trans _ (id_to_string (s_id x))); unfold ble; congruence.
    - apply C05_reversed_range_panics. unfold id_le in N. destruct (id_cmp a b); [exfalso; apply N; discriminate..|reflexivity].
  Qed.

  (** ** C39 *)
  Theorem C39_prefix_listing_exact :
    forall dbg L p, reachable dbg L -> (forall k e, recorded L k e -> exists i, k = id_to_string i) ->
    exists l, get_all L (Some p) = Ok l
      /\ Forall2 (fun kv x => carries (snd kv) x) (filter (fun kv => starts_with (fst kv) (sv p)) L) l.
  Proof. intros dbg L p R K. apply get_all_prefix; [apply (reach_lwf dbg), R|exact K]. Qed.
  (** as a statement about elements: a transaction is listed iff it is recorded under a key with the prefix *)
  Theorem C39_listed_iff_recorded :
    forall dbg L p, reachable dbg L -> (forall k e, recorded L k e -> exists i, k = id_to_string i) ->
    exists l, get_all L (Some p) = Ok l
      /\ forall x, In x l <-> exists r e, recorded L (sv p ++ r) e /\ carries e x.
  Proof.
    intros dbg L p R K. destruct (C39_prefix_listing_exact dbg L p R K) as (l & A & B). exists l. split; [exact A|].
    intros x. split.
    - intros Hx. assert (G : forall F l, Forall2 (fun (kv : bytes * Env) x => carries (snd kv) x) F l -> In x l ->
          exists kv, In kv F /\ carries (snd kv) x).
      { induction 1 as [|kv y F l' Hy _ IH]; [intros []|]. intros [<-|X]; [exists kv; split; [left; reflexivity|exact Hy]|].
        destruct (IH X) as (kv' & Y & Z). exists kv'. split; [right; exact Y|exact Z]. }
      destruct (G _ _ B Hx) as ([k e] & Y & Z). apply filter_In in Y as [Y W]. cbn [fst] in W.
      apply starts_with_spec in W as (r & ->). exists r, e. auto.
    - intros (r & e & Y & Z).
      assert (I : In (sv p ++ r, e) (filter (fun kv : bytes * Env => starts_with (fst kv) (sv p)) L)).
      { apply filter_In. split; [exact Y|]. cbn [fst]. apply starts_with_spec. eauto. }
      clear -B I Z. induction B as [|kv y F l' Hy _ IH]; [destruct I|].
      destruct I as [->|I]; [left|right; auto]. unfold carries in *. cbn [snd] in Hy. congruence.
  Qed.
  Theorem C39_full_listing :
    forall dbg L, reachable dbg L -> exists l, get_all L None = Ok l /\ Forall2 (fun kv x => carries (snd kv) x) L l.
  Proof. intros dbg L R. apply get_all_none, (reach_lwf dbg), R. Qed.

  (** ** C59: with honest envelopes the closing entry is a VotingEnd signed by the authority it names *)
  Theorem C59_end_signed_by_named_authority_partial :
    forall dbg envs e en, Forall honest envs -> recorded (run dbg [] envs) (id_to_string (slot0 e TVotingEnd)) en ->
    exists x t el, carries en x /\ s_tx x = XVotingEnd t
      /\ at_id (accepted dbg [] envs) (ve_election t) (XElection el) /\ signed_by (el_authority el) x.
  Proof.
    intros dbg envs e en H R. destruct (honest_run0 dbg envs H) as (A & HL & D & W).
    destruct (HL _ _ R) as (x & Dx & Ex). apply id_to_string_inj in Ex.
    assert (Hx : In x (accepted dbg [] envs)).
    { apply (hist_stored dbg _ x A). rewrite <- D. apply decoded_in; auto. exists en. rewrite <- Ex. auto. }
    pose proof (hist_typed dbg _ x A Hx) as Ty. rewrite <- Ex in Ty. cbn [slot0 id_type] in Ty.
    destruct (hist_accepted dbg _ x A Hx) as (p & q & E & Hp & _ & V).
    unfold s_type in Ty. destruct (s_tx x) as [t|t|t|t|t|t|t|t|t|t] eqn:Tx; try discriminate Ty.
    apply (validate_iff _ _ (stored_holds p)) in V as (_ & S & V). rewrite Tx in V, S. cbn [ok_tx] in V.
    destruct V as (el & Hel & Ha). exists x, t, el. split; [exact Dx|]. split; [exact Tx|].
    apply (proj1 (at_id_stored dbg p _ _ Hp)) in Hel. apply (at_id_mono _ (x :: q)) in Hel. rewrite <- E in Hel.
    split; [exact Hel|]. rewrite <- Ha. apply S. reflexivity.
  Qed.

  (** ** C60: with honest envelopes only a vote by a key with the same 16 bytes takes the slot *)
  Theorem C60_slot_taken_by_equal_prefix_partial :
    forall dbg envs e k en, Forall honest envs ->
    recorded (run dbg [] envs) (id_to_string (vote_build_id e k)) en ->
    exists x v, carries en x /\ s_tx x = XVote v /\ signed_by (vt_key v) x
      /\ firstn 16 (arr_l (sv (vt_key v))) = firstn 16 (arr_l k).
  Proof.
    intros dbg envs e k en H R. destruct (honest_run0 dbg envs H) as (A & HL & D & W).
    destruct (HL _ _ R) as (x & Dx & Ex). apply id_to_string_inj in Ex.
    assert (Hx : In x (accepted dbg [] envs)).
    { apply (hist_stored dbg _ x A). rewrite <- D. apply decoded_in; auto. exists en. rewrite <- Ex. auto. }
    pose proof (hist_typed dbg _ x A Hx) as Ty. rewrite <- Ex in Ty. unfold vote_build_id, id_new in Ty. cbn [id_type] in Ty.
    destruct (hist_accepted dbg _ x A Hx) as (p & q & _ & Hp & _ & V).
    unfold s_type in Ty. destruct (s_tx x) as [t|t|t|t|t|v|t|t|t|t] eqn:Tx; try discriminate Ty.
    apply (validate_iff _ _ (stored_holds p)) in V as (_ & S & V). rewrite Tx in V, S. cbn [ok_tx] in V.
    exists x, v. split; [exact Dx|]. split; [exact Tx|]. split; [apply S; reflexivity|].
    destruct V as (el & _ & (_ & _ & U) & _). assert (Ei : s_id x = vt_id v) by (unfold s_id; rewrite Tx; reflexivity).
    rewrite <- U, <- Ei, <- Ex. unfold vote_build_id. rewrite id_new_some. reflexivity.
  Qed.
End Props.

(** ** Examples and counterexamples *)
#[local] Existing Instance Toy.

Definition led (l : list STx) : Ledger := run true [] (map into_env l).
Definition at_key (i : Identifier) (x : STx) : Env := mk_env (arr_rep x00 32) (s1 (id_to_string i)) (stx_bytes x).
Definition key_at_string (k : rstring) (x : STx) : Env := mk_env (arr_rep x00 32) k (stx_bytes x).
Lemma led_reach l : reachable true (led l).
Proof. apply run_reach. constructor. Qed.

Lemma ok_not_err {E A} (r : res E A) e : is_ok r = true -> r <> Err e.
Proof. intros H ->. discriminate H. Qed.
(** all of the scene is accepted by the ledger, a repetition is not *)
Example C35_example :
  List.length (led scene_plain) = List.length scene_plain
  /\ verify_and_store true (led scene_plain) (into_env votingend) = Err TransactionAlreadyExists
  /\ verify_and_store true (led (setup None)) (into_env (vote x20 (lit "yes"))) <> Err TransactionAlreadyExists.
Proof.
  split; [vm_compute; reflexivity|]. split; [vm_compute; reflexivity|]. apply ok_not_err. vm_compute. reflexivity.
Qed.
Example C35_bad_format :
  verify_and_store true [] (mk_env (arr_rep x00 32) b1 [x01]) = Err InvalidTransactionFormat
  /\ verify_and_store true [] (into_env votingend) = Err VerificationFailed.
Proof. split; vm_compute; reflexivity. Qed.

Definition EL : STx := sgn x01 (XElection (election None)).
(** decidable search in a ledger *)
Definition no_type (t : TxType) (L : Ledger) : bool :=
  forallb (fun p => match stx_from_bytes (en_data (snd p)) with Ok x => negb (tt_eqb (s_type x) t) | _ => true end) L.
Lemma no_type_ok t L : no_type t L = true -> forall k e x, recorded L k e -> carries e x -> s_type x <> t.
Proof.
  intros H k e x R D E. unfold no_type in H. rewrite forallb_forall in H. apply H in R. cbn [snd] in R.
  unfold carries in D. rewrite D in R. apply negb_true_iff in R. rewrite E in R.
  assert (tt_eqb t t = true) by (apply tt_eqb_eq; reflexivity). congruence.
Qed.
Definition bytes_at (L : Ledger) (k : bytes) (d : bytes) : bool :=
  match bt_get L k with Some e => bytes_eqb (en_data e) d | None => false end.
Lemma bytes_at_ok dbg L k d : reachable dbg L -> bytes_at L k d = true -> exists e, recorded L k e /\ en_data e = d.
Proof.
  intros R H. unfold bytes_at in H. destruct (bt_get L k) as [e|] eqn:G; [|discriminate].
  apply (bt_get_in _ _ _ (lw_sorted _ (reach_lwf _ _ R))) in G. exists e. split; [exact G|].
  apply bytes_eqb_eq, H.
Qed.
Lemma stored_data dbg L k d : reachable dbg L -> bytes_at L k d = true -> exists e0, In e0 L /\ en_data (snd e0) = d.
Proof. intros R H. destruct (bytes_at_ok _ _ _ _ R H) as (e & A & D). exists (k, e). split; assumption. Qed.

Lemma ok_with {E A} (r : res E A) (f : A -> bool) :
  match r with Ok x => f x | _ => false end = true -> exists x, r = Ok x /\ f x = true.
Proof. destruct r; intros H; [eauto|discriminate..]. Qed.

(** C36 refuted: one transaction recorded three times, once under a key that is no identifier and once
    under the identifier of another object *)
Theorem C36_own_identifier_refuted :
  exists L k1 k2 k3 e1 e2 e3 x, reachable true L
    /\ recorded L k1 e1 /\ recorded L k2 e2 /\ recorded L k3 e3
    /\ carries e1 x /\ carries e2 x /\ carries e3 x
    /\ k1 = id_to_string (s_id x) /\ (forall i, k2 <> id_to_string i)
    /\ k3 = id_to_string (slot0 (s_id x) TVotingEnd).
Proof.
  set (L := run true [] [into_env EL; key_at_string b1 EL; at_key (slot0 EID TVotingEnd) EL]).
  assert (R : reachable true L) by (apply run_reach; constructor).
  destruct (bytes_at_ok true L (id_to_string EID) (stx_bytes EL) R) as (e1 & A1 & D1); [vm_compute; reflexivity|].
  destruct (bytes_at_ok true L (sv b1) (stx_bytes EL) R) as (e2 & A2 & D2); [vm_compute; reflexivity|].
  destruct (bytes_at_ok true L (id_to_string (slot0 EID TVotingEnd)) (stx_bytes EL) R) as (e3 & A3 & D3); [vm_compute; reflexivity|].
  destruct (ok_with (stx_from_bytes (stx_bytes EL)) (fun x => id_eqb (s_id x) EID)) as (x & E & X); [vm_compute; reflexivity|].
  apply id_eqb_eq in X.
  exists L, (id_to_string EID), (sv b1), (id_to_string (slot0 EID TVotingEnd)), e1, e2, e3, x.
  unfold carries. rewrite D1, D2, D3, X.
  split; [exact R|]. split; [exact A1|]. split; [exact A2|]. split; [exact A3|]. split; [exact E|]. split; [exact E|].
  split; [exact E|]. split; [reflexivity|]. split; [|reflexivity]. intros i K. apply (f_equal (@List.length byte)) in K.
  rewrite id_to_string_length in K. discriminate.
Qed.

(** C37 refuted for the range: after the end of election A, a vote cast in B is stored in A's vote range *)
Definition voteB : STx :=
  sgn x30 (XVote (mk_vote (vote_build_id EID2 (key_of x30)) EID2 b1
     [mk_encvote (n32 0) [enc (sel (lit "no")) 5]] (pk_of x30) [])).
Definition two_elections : list STx :=
  setup None ++ voting ++ [votingend; electionB_tx;
    sgn x0c (XPublicKey (mk_pubkey (pubkey_build_id EID2 x01) EID2 x01 (pk_of x0c) evil_key (proof_of x01)));
    sgn x02 (XEncryptionKey (mk_enckey (enckey_build_id EID2) EID2 (pk_of x02) evil_key))].
Definition range_count (L : Ledger) (e : Identifier) (t : TxType) : nat :=
  match get_multiple (ex_store L) e t with Ok l => List.length l | _ => 0 end.
Theorem C37_vote_range_frozen_refuted :
  exists L l e en0, reachable true L /\ recorded L (id_to_string (slot0 e TVotingEnd)) en0
    /\ get_multiple (ex_store (run true L l)) e TVote <> get_multiple (ex_store L) e TVote.
Proof.
  destruct (bytes_at_ok true (led two_elections) (id_to_string (slot0 EID TVotingEnd)) (stx_bytes votingend) (led_reach _)) as (e & A & _).
  { vm_compute; reflexivity. }
  exists (led two_elections), [at_key (vote_build_id EID (key_of x77)) voteB], EID, e.
  split; [apply led_reach|]. split; [exact A|]. intros K.
  assert (K' : range_count (run true (led two_elections) [at_key (vote_build_id EID (key_of x77)) voteB]) EID TVote
             = range_count (led two_elections) EID TVote) by (unfold range_count; rewrite K; reflexivity).
  assert (X : Nat.eqb (range_count (run true (led two_elections) [at_key (vote_build_id EID (key_of x77)) voteB]) EID TVote)
             (range_count (led two_elections) EID TVote) = false) by (vm_compute; reflexivity).
  rewrite K', Nat.eqb_refl in X. discriminate.
Qed.
(** with honest submission the same vote of B leaves A's range alone and is accepted *)
Example C37_example :
  range_count (led two_elections) EID TVote = 2
  /\ range_count (submit true (led two_elections) (into_env voteB)) EID TVote = 2
  /\ range_count (submit true (led two_elections) (into_env voteB)) EID2 TVote = 1.
Proof. vm_compute. repeat split. Qed.

(** C38: reversed ranges *)
Theorem C38_reversed_range_refuted :
  exists a b, st_range (ex_store []) a b <> st_range (ms_store ms_empty) a b.
Proof.
  exists (slot0 EID TVote), (slot0 EID TElection). intros K. apply (f_equal is_ok) in K. vm_compute in K. discriminate.
Qed.
Lemma honest_by e : match stx_from_bytes (en_data e) with
                    | Ok x => bytes_eqb (sv (en_id e)) (id_to_string (s_id x)) | _ => true end = true -> honest e.
Proof. intros H x D. unfold carries in D. rewrite D in H. apply bytes_eqb_eq, H. Qed.
Example C38_scene_is_honest : Forall honest (map into_env scene_mix)
  /\ List.length (accepted true [] (map into_env scene_mix)) = 19.
Proof.
  split; [|vm_compute; reflexivity]. apply Forall_forall. intros e He. apply honest_by. revert e He.
  apply (proj1 (forallb_forall _ _)). vm_compute. reflexivity.
Qed.

(** C39: the keys of the scene are identifiers; a listing of one type; a key that is no identifier is missed *)
Example C39_example :
  let go p := match get_all (led scene_plain) (Some p) with Ok l => List.length l | _ => 0 end in
  go (s1 (id_to_string EID)) = 1 /\ go (lit "1111") = 17
  /\ go (s1 (id_election_string EID ++ tt_hex_string TVote)) = 2 /\ go (lit "zz") = 0 /\ go (lit "") = 17.
Proof. vm_compute. repeat split. Qed.
Example C39_short_key_missed :
  match get_all (run true [] [key_at_string (lit "b") EL]) (Some (lit "b")) with Ok l => List.length l | _ => 9 end = 0
  /\ List.length (run true [] [key_at_string (lit "b") EL]) = 1.
Proof. split; vm_compute; reflexivity. Qed.

(** C59 refuted: replaying the election transaction into the VotingEnd slot ends the voting; no VotingEnd
    transaction exists on the ledger *)
Theorem C59_anyone_ends_voting_refuted :
  exists L en x, reachable true L /\ validate true (ex_store L) x = Ok tt
    /\ (exists e0, In e0 L /\ en_data (snd e0) = en_data en)
    /\ validate true (ex_store (submit true L en)) x = Err VotingHasEnded
    /\ forall k e y, recorded (submit true L en) k e -> carries e y -> s_type y <> TVotingEnd.
Proof.
  exists (led (setup None)), (at_key (slot0 EID TVotingEnd) EL), (vote x20 (lit "yes")).
  split; [apply led_reach|]. split; [vm_compute; reflexivity|]. split.
  - apply (stored_data true _ (id_to_string EID)); [apply led_reach|vm_compute; reflexivity].
  - split; [vm_compute; reflexivity|]. apply no_type_ok. vm_compute. reflexivity.
Qed.
(** C60 refuted: a voter's slot is taken by a copy of the election transaction *)
Theorem C60_slot_taken_refuted :
  exists L en x, reachable true L /\ verify_and_store true L (into_env x) <> Err TransactionAlreadyExists
    /\ is_ok (verify_and_store true L (into_env x)) = true
    /\ verify_and_store true (submit true L en) (into_env x) = Err TransactionAlreadyExists
    /\ forall k e y, recorded (submit true L en) k e -> carries e y -> s_type y <> TVote.
Proof.
  exists (led (setup None)), (at_key (vote_build_id EID (key_of x20)) EL), (vote x20 (lit "yes")).
  split; [apply led_reach|]. split; [vm_compute; discriminate|]. split; [vm_compute; reflexivity|].
  split; [vm_compute; reflexivity|]. apply no_type_ok. vm_compute. reflexivity.
Qed.

Print Assumptions C31_one_decryption_per_slot.
Print Assumptions C31_one_decryption_in_history.
Print Assumptions C34_append_only.
Print Assumptions C34_never_replaced.
Print Assumptions C35_acceptance_rule.
Print Assumptions C35_used_key_refused.
Print Assumptions C35_accepted_adds_exactly_one.
Print Assumptions C35_refused_changes_nothing.
Print Assumptions C36_own_identifier_partial.
Print Assumptions C36_recorded_once_partial.
Print Assumptions C36_key_is_envelope_key_partial.
Print Assumptions C36_own_identifier_refuted.
Print Assumptions C37_votes_frozen.
Print Assumptions C37_vote_range_frozen_partial.
Print Assumptions C37_vote_range_frozen_refuted.
Print Assumptions C38_ledger_and_memory_agree_partial.
Print Assumptions C38_reversed_range_partial.
Print Assumptions C38_reversed_range_refuted.
Print Assumptions C39_prefix_listing_exact.
Print Assumptions C39_listed_iff_recorded.
Print Assumptions C39_full_listing.
Print Assumptions C59_end_signed_by_named_authority_partial.
Print Assumptions C59_anyone_ends_voting_refuted.
Print Assumptions C60_slot_taken_by_equal_prefix_partial.
Print Assumptions C60_slot_taken_refuted.
