(** * Props_Agree: C53 (the unsigned helper fields of trustees have no effect). *)
From Verif Require Import Base BaseFacts Utf8 Cbor Ident BuildId Crypto Types Serde SpecSerde SerdeFacts Store Prost Validate Exonum Audit
  Trustee Tasks SpecAgree AgreeFacts Toy Scene ToyT.
Open Scope list_scope.

Section Props.
  Context {C : Crypto}.

  (** the verdict on a transaction, including the error or panic, does not depend on them *)
  Theorem C53_verdict :
    forall dbg s s' x x', store_agree s s' -> stx_agree x x' -> validate dbg s x = validate dbg s' x'.
  Proof. intros dbg s s' x x' H X. exact (validate_agree H dbg X). Qed.

  (** nor do the transactions a node generates, down to the last byte *)
  Theorem C53_follow_ups {TC : TCrypto} :
    forall dbg sk r s s' x x', store_agree s s' -> stx_agree x x' ->
    generate_transactions dbg sk r s x = generate_transactions dbg sk r s' x'.
  Proof. intros dbg sk r s s' x x' H X. exact (follow_agree dbg sk r H X). Qed.

  (** in-memory stores filled with such transactions are such stores *)
  Theorem C53_stores :
    forall l l', Forall2 stx_agree l l' -> store_agree (ms_store (ms_from l)) (ms_store (ms_from l')).
  Proof. intros l l' F. apply store_of_agree, from_agree, F. Qed.

  (** the end-to-end audit stops at the same transaction with the same error, or accepts both *)
  Theorem C53_audit :
    forall dbg l l', Forall2 stx_agree l l' ->
    (forall e, audit dbg l = Err e <-> audit dbg l' = Err e)
    /\ (forall p, audit dbg l = Panic p <-> audit dbg l' = Panic p)
    /\ (forall m m', audit dbg l = Ok m -> audit dbg l' = Ok m' -> store_agree (ms_store m) (ms_store m')).
  Proof.
    intros dbg l l' F. assert (A : res_agree (Forall2 entry_agree) (audit dbg l) (audit dbg l')).
    { destruct F as [|x y l l' X F]; cbn [audit]; [constructor|]. unfold s_type. rewrite (agree_type _ _ (proj1 X)).
      destruct (fail_if _ _) as [[]|e|p]; cbn [bind]; [|constructor..].
      apply audit_agree; [constructor|constructor; assumption]. }
    inversion A as [a b R Ea Eb|e Ea Eb|p Ea Eb]; (split; [|split]); try (intros e'; split; congruence); try (intros; congruence).
    intros m m' E1 E2. apply store_of_agree. injection E1 as <-. injection E2 as <-. exact R.
  Qed.

  (** the fields are read where the code does not first overwrite them: the generator of a trustee taken from the
      transaction itself would differ (trustee.rs 217-222), which is why [get_full_trustees] matters *)
  Theorem C53_full_trustees :
    forall a b, content_agree (XElection a) (XElection b) -> get_full_trustees a = get_full_trustees b.
  Proof. intros a b H. exact (ag_full H). Qed.
End Props.

(** ** Concrete case: an election whose trustees claim 7 trustees and threshold 9 *)
#[local] Existing Instance Toy.
Definition inflated (e : ElectionTx) : ElectionTx :=
  mk_election (el_id e) (el_authority e) (map (fun t => mk_trustee (tr_public_key t) (tr_index t) (u_of 8 7) x09) (el_trustees e))
    (el_threshold e) (el_authenticators e) (el_auth_threshold e) (el_mix_config e) (el_ballots e) (el_contests e) (el_props e).
Definition inflate (x : STx) : STx :=
  mk_stx (match s_tx x with XElection e => XElection (inflated e) | t => t end) (s_sig x).
Lemma inflate_agree x : stx_agree x (inflate x).
Proof.
  split; [|reflexivity]. destruct x as [[e| | | | | | | | |] g]; try reflexivity.
  unfold inflate. cbn [s_tx content_agree]. split; [reflexivity|]. split; [reflexivity|]. split; [|auto 12].
  cbn [inflated el_trustees]. induction (el_trustees e); cbn [map]; [constructor|constructor; [split; reflexivity|assumption]].
Qed.
Lemma inflate_all l : Forall2 stx_agree l (map inflate l).
Proof. induction l as [|x l IH]; [constructor|]. cbn [map]. constructor; [apply inflate_agree|exact IH]. Qed.
Example C53_case :
  exists x m, In x (setup None ++ voting) /\ inflate x <> x
    /\ store_agree (ms_store (ms_from (setup None ++ voting))) (ms_store (ms_from (map inflate (setup None ++ voting))))
    /\ validate true (ms_store (ms_from (map inflate (setup None ++ voting)))) votingend = Ok tt
    /\ audit true (map inflate (setup None ++ voting)) = Ok m.
Proof.
  assert (A : is_ok (audit true (map inflate (setup None ++ voting))) = true) by (vm_compute; reflexivity).
  destruct (audit true (map inflate (setup None ++ voting))) as [m|e|p] eqn:E; try discriminate A.
  exists (sgn x01 (XElection (election None))), m. split; [left; reflexivity|]. split.
  - intros Q. apply (f_equal (fun x => match s_tx x with XElection e => map (fun t => u8v (tr_threshold t)) (el_trustees e) | _ => [] end)) in Q.
    vm_compute in Q. discriminate Q.
  - split; [|split; [vm_compute; reflexivity|reflexivity]].
    apply C53_stores, inflate_all.
Qed.
(** the follow-up of an inflated election is a commitment, as for the plain one *)
Example C53_follow_case : exists x,
  @generate_transactions Toy ToyT true (key_of x0a) (mk_rnd (fun _ => arr_rep x00 12) (fun _ _ => []) (fun _ => []))
    (ms_store (ms_from [])) (inflate (sgn x01 (XElection (election None)))) = Ok [x].
Proof.
  set (m := @generate_transactions Toy ToyT _ _ _ _ _).
  assert (A : match m with Ok [_] => true | _ => false end = true) by (vm_compute; reflexivity).
  destruct m as [[|x [|]]|e|p]; try discriminate A. exists x. reflexivity.
Qed.

Print Assumptions C53_verdict.
Print Assumptions C53_follow_ups.
Print Assumptions C53_stores.
Print Assumptions C53_audit.
Print Assumptions C53_full_trustees.
