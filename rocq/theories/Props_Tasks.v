(** * Props_Tasks: C42-C46 (transactions generated by nodes). *)
From Coq Require Strings.String.
From Verif Require Import Base BaseFacts Utf8 Cbor Ident BuildId IdentFacts Crypto Types Serde Store SpecStore StoreFacts Prost Validate ValidateFacts
  SpecValid ValidFacts ValidFacts2 ValidFacts3 SpecHist HistFacts Trustee Tasks SpecTasks TasksFacts TasksFacts2 TasksFacts3
  Toy Scene ToyT.
Import String.StringSyntax.
Open Scope list_scope.

Section Props.
  Context {C : Crypto} {TC : TCrypto}.

  (** ** C42 *)
  Theorem C42_commitment_accepted :
    forall dbg sk s L el, ed_sign_verifies -> holds s L ->
    at_id L (el_id el) (XElection el) -> is_trustee el (ed_public sk) ->
    exists x c i, process_election sk el = Ok [x] /\ s_tx x = XCommitment c /\ kc_election c = el_id el
      /\ kc_public c = ed_public sk /\ acts_as el (ed_public sk) i /\ kc_trustee c = i
      /\ kc_id c = commitment_build_id (el_id el) i /\ validate dbg s x = Ok tt.
  Proof. intros dbg sk s L el law H. exact (election_task dbg sk law s L H el). Qed.

  (** full statement: without the last hypothesis *)
  Theorem C42_share_accepted_partial :
    forall dbg sk r s L c l x, ed_sign_verifies -> holds s L ->
    process_keygen_commitment sk r s c = Ok l -> In x l ->
    (forall el cs, at_id L (kc_election c) (XElection el) ->
       range_is L (kc_election c) TKeyGenCommitment XCommitment cs ->
       distinct_indices el /\ one_each kc_trustee el cs) ->
    exists sh, s_tx x = XShare sh /\ ks_public sh = ed_public sk /\ ks_election sh = kc_election c
      /\ validate dbg s x = Ok tt.
  Proof. intros dbg sk r s L c l x law H. exact (commitment_task dbg sk r law s L H c l x). Qed.

  Theorem C42_public_key_accepted :
    forall dbg sk s L sh l x, ed_sign_verifies -> holds s L ->
    process_keygen_share sk s sh = Ok l -> In x l ->
    exists p, s_tx x = XPublicKey p /\ kp_public p = ed_public sk /\ kp_election p = ks_election sh
      /\ kp_id p = pubkey_build_id (ks_election sh) (kp_trustee p) /\ validate dbg s x = Ok tt.
  Proof. intros dbg sk s L sh l x law H. exact (share_task dbg sk law s L H sh l x). Qed.

  (** ** C43 *)
  (** the generated key is accepted exactly when every trustee has recorded a public key and all keys agree *)
  Theorem C43_encryption_key_accepted :
    forall dbg sk s L p l x, ed_sign_verifies -> holds s L ->
    process_keygen_public_key sk s p = Ok l -> In x l ->
    exists k el pks, s_tx x = XEncryptionKey k /\ ek_key k = kp_key p /\ ek_election k = kp_election p
      /\ ek_id k = enckey_build_id (kp_election p)
      /\ at_id L (kp_election p) (XElection el) /\ range_is L (kp_election p) TKeyGenPublicKey XPublicKey pks
      /\ (validate dbg s x = Ok tt <->
          (forall tr, In tr (el_trustees el) ->
             exists q, In q pks /\ kp_trustee q = tr_index tr /\ kp_public q = tr_public_key tr)
          /\ forall q, In q pks -> kp_key q = kp_key p).
  Proof. intros dbg sk s L p l x law H. exact (pubkey_task dbg sk law s L H p l x). Qed.
  (** it is generated by the authority's node as soon as there are as many keys as trustees *)
  Theorem C43_encryption_key_generated :
    forall sk s L p el pks, holds s L -> at_id L (kp_election p) (XElection el) -> el_authority el = ed_public sk ->
    range_is L (kp_election p) TKeyGenPublicKey XPublicKey pks -> List.length pks = List.length (el_trustees el) ->
    exists x, process_keygen_public_key sk s p = Ok [x].
  Proof.
    intros sk s L p el pks H A K R N. pose proof (at_election_id L _ _ A) as Ei. unfold process_keygen_public_key.
    apply (t_election_iff s L H) in A. rewrite A. cbn [bind]. assert (B : pk_eqb (el_authority el) (node_key sk) = true).
    { apply pk_eqb_eq. exact K. }
    rewrite B, Ei. apply (t_multiple_iff s L H _ _ _ _ _ as_pubkey_iff) in R. rewrite R. cbn [bind]. rewrite N, Nat.eqb_refl.
    destruct (tsign_own sk (XEncryptionKey (mk_enckey (enckey_build_id (kp_election p)) (kp_election p) (el_authority el) (kp_key p))))
      as (x & X).
    { cbn. intros q Q. injection Q as <-. exact K. }
    exists x. unfold one. rewrite X. reflexivity.
  Qed.

  (** ** C44 *)
  (** a first mix is accepted exactly when every recorded vote has exactly one selection list for the contest;
      full statement: always *)
  Theorem C44_first_mix_partial :
    forall dbg sk r s L ve l x el mc, ed_sign_verifies -> shuffle_verifies -> holds s L ->
    process_voting_end sk r s ve = Ok l -> In x l ->
    at_id L (ve_election ve) (XElection el) -> el_mix_config el = Some mc ->
    exists m vs, s_tx x = XMix m /\ mx_election m = ve_election ve /\ mx_index m = x00 /\ mx_public m = ed_public sk
      /\ range_is L (ve_election ve) TVote XVote vs
      /\ (validate dbg s x = Ok tt <-> forall v, In v vs -> votes_once (mx_contest m) v).
  Proof. intros dbg sk r s L ve l x el mc law shv H. exact (end_mix dbg sk r law shv s L H ve l x el mc). Qed.
  (** the node of the first trustee makes one for every contest with a recorded selection list *)
  Theorem C44_first_mix_all_contests :
    forall sk r s L ve l el mc, holds s L ->
    process_voting_end sk r s ve = Ok l ->
    at_id L (ve_election ve) (XElection el) -> el_mix_config el = Some mc ->
    acts_as el (ed_public sk) x01 ->
    forall x v ev, In x (listed L (ve_election ve) TVote) -> s_tx x = XVote v -> In ev (vt_votes v) ->
    exists y m, In y l /\ s_tx y = XMix m /\ mx_contest m = ev_contest ev.
  Proof.
    intros sk r s L ve l el mc H P A M (t0 & F & X).
    destruct (full_some el (node_key sk)) as (t & T).
    { apply first_in in F as [F1 F2]. exists t0. auto. }
    apply (end_mix_all sk r s L H ve l el mc t P A M T). apply full_first in T as (t1 & F1 & ->). cbn [tr_index].
    assert (Q : forall x, pk_eqb (tr_public_key x) (node_key sk) = true <-> tr_public_key x = node_key sk)
      by (intros; apply pk_eqb_eq).
    apply (find_first _ _ _ _ Q) in F. apply (find_first _ _ _ _ Q) in F1. congruence.
  Qed.
  (** no mix generated in response to a recorded mix is ever accepted *)
  Theorem C44_next_mix_rejected :
    forall dbg sk r s L m l x, holds s L -> process_mix dbg sk r s m = Ok l -> In x l -> s_type x = TMix ->
    dbg = true \/ mx_index m <> xff -> validate dbg s x <> Ok tt.
  Proof. intros dbg sk r s L m l x H. exact (next_mix dbg sk r s L H m l x). Qed.

  (** ** C45 *)
  Theorem C45_vote_partials_partial :
    forall dbg sk r s L ve l el, ed_sign_verifies -> party_share_verifies -> holds s L ->
    process_voting_end sk r s ve = Ok l ->
    at_id L (ve_election ve) (XElection el) -> el_mix_config el = None ->
    (forall x, In x l -> exists p v ev, s_tx x = XPartial p /\ pd_election p = ve_election ve /\ pd_public p = ed_public sk
        /\ at_id L (vt_id v) (XVote v) /\ id_election (vt_id v) = id_election (ve_election ve) /\ In ev (vt_votes v)
        /\ pd_upstream p = vt_id v /\ uv (pd_index p) = 0%N /\ pd_contest p = ev_contest ev
        /\ (NoDup (map ev_contest (vt_votes v)) -> own_key_recorded sk s L (ve_election ve) ->
            occupied L (slot0 (ve_election ve) TVotingEnd) -> validate dbg s x = Ok tt))
    /\ (is_trustee el (ed_public sk) -> el_contests el <> [] ->
        forall y v ev, In y (listed L (ve_election ve) TVote) -> s_tx y = XVote v -> In ev (vt_votes v) ->
        exists x p, In x l /\ s_tx x = XPartial p /\ pd_upstream p = vt_id v /\ pd_contest p = ev_contest ev
          /\ List.length (pd_shares p) = List.length (ev_selections ev)).
  Proof. intros dbg sk r s L ve l el law psv H. exact (end_partials dbg sk r law psv s L H ve l el). Qed.
  Theorem C45_mix_partials_partial :
    forall dbg sk r h m l el mc, ed_sign_verifies -> party_share_verifies -> history dbg h ->
    let s := ms_store (ms_from h) in
    process_mix dbg sk r s m = Ok l ->
    at_id h (mx_election m) (XElection el) -> el_mix_config el = Some mc ->
    u8v (el_threshold el) = (u8v (mx_index m) + 1)%N ->
    at_id h (mx_id m) (XMix m) -> (N.of_nat (List.length (mx_out m)) < 65536)%N ->
    (forall x, In x l -> exists p row, s_tx x = XPartial p /\ pd_election p = mx_election m /\ pd_public p = ed_public sk
        /\ pd_upstream p = mx_id m /\ pd_contest p = mx_contest m
        /\ nth_error (mx_out m) (N.to_nat (uv (pd_index p))) = Some row
        /\ (own_key_recorded sk s (stored h) (mx_election m) -> occupied h (slot0 (mx_election m) TVotingEnd) ->
            validate dbg s x = Ok tt))
    /\ (is_trustee el (ed_public sk) ->
        forall k row, nth_error (mx_out m) k = Some row ->
        exists x p, In x l /\ s_tx x = XPartial p /\ pd_upstream p = mx_id m /\ pd_contest p = mx_contest m
          /\ uv (pd_index p) = N.of_nat k /\ List.length (pd_shares p) = List.length row).
  Proof.
    intros dbg sk r h m l el mc law psv Hh s P A M Th Am Len.
    assert (Tm : id_type (mx_id m) = TMix).
    { destruct Am as (y & Iy & Ey & Ty). pose proof (hist_typed dbg h y Hh Iy) as Q. unfold s_type in Q. rewrite Ey, Ty in Q. exact Q. }
    pose proof (stored_holds h) as H. fold s in H.
    destruct (mix_partials dbg sk r law psv s (stored h) H m l el mc P) as [X Y]; auto.
    - apply (hist_at_id dbg _ _ _ Hh), A.
    - apply (hist_at_id dbg _ _ _ Hh), Am.
    - split; [|exact Y]. intros x I. destruct (X x I) as (p & row & X1 & X2 & X3 & X4 & X5 & X6 & X7). exists p, row.
      repeat (split; [assumption|]). intros O V. apply X7; [exact O|]. destruct V as (y & V1 & V2). exists y. split; [|exact V2].
      apply (hist_stored dbg h y Hh), V1.
  Qed.

  (** ** C46 *)
  Theorem C46_decryption_accepted :
    forall dbg sk h x0 p l x, ed_sign_verifies -> history dbg h -> In x0 h -> s_tx x0 = XPartial p ->
    process_partial_decryption sk (ms_store (ms_from h)) p = Ok l -> In x l ->
    exists d, s_tx x = XDecryption d /\ dc_election d = pd_election p /\ dc_upstream d = pd_upstream p
      /\ dc_contest d = pd_contest p /\ dc_index d = pd_index p /\ validate dbg (ms_store (ms_from h)) x = Ok tt.
  Proof. intros dbg sk h x0 p l x law. exact (partial_task dbg sk law h x0 p l x). Qed.
End Props.

(** ** Cases and counterexamples *)
#[local] Existing Instance Toy.
#[local] Existing Instance ToyT.

Definition plain : list STx := auto (election None) voting.
Definition mixed : list STx := auto (election (Some mixcfg)) voting.
Definition at_pos (l : list STx) (k : nat) : STx := nth k l votingend.
Definition types (m : res TaskError (list STx)) : option (list TxType) :=
  match m with Ok l => Some (map s_type l) | _ => None end.
Definition refused (dbg : bool) (h : list STx) (m : res TaskError (list STx)) : bool :=
  match m with
  | Ok l => forallb (fun x => negb (is_ok (validate dbg (ms_store (ms_from h)) x))) l && negb (Nat.eqb (length l) 0)
  | _ => false
  end.
Lemma refused_in dbg h m : refused dbg h m = true ->
  exists l x, m = Ok l /\ In x l /\ validate dbg (ms_store (ms_from h)) x <> Ok tt.
Proof.
  unfold refused. destruct m as [l| |]; try discriminate. intros E. apply andb_prop in E as [A B].
  destruct l as [|x l]; [discriminate B|]. exists (x :: l), x. split; [reflexivity|]. split; [left; reflexivity|].
  cbn [forallb] in A. apply andb_prop in A as [A _]. destruct (validate _ _ _); (discriminate A || discriminate).
Qed.

Lemma all_refused dbg h m : refused dbg h m = true ->
  exists l, m = Ok l /\ forall x, In x l -> validate dbg (ms_store (ms_from h)) x <> Ok tt.
Proof.
  unfold refused. destruct m as [l| |]; try discriminate. intros E. exists l. split; [reflexivity|]. intros x I.
  apply andb_prop in E as [E _]. apply forallb_forall with (x := x) in E; [|exact I].
  destruct (validate _ _ _); (discriminate E || discriminate).
Qed.
Lemma nothing m : types m = Some [] -> m = Ok [].
Proof. destruct m as [[|? ?]| |]; try discriminate. reflexivity. Qed.
Definition second (m : res TaskError (list STx)) : res TaskError (list STx) :=
  match m with Ok [_; y] => Ok [y] | _ => Ok [] end.
Lemma second_refused dbg h m : refused dbg h (second m) = true ->
  exists l x, m = Ok l /\ In x l /\ validate dbg (ms_store (ms_from h)) x <> Ok tt.
Proof.
  intros R. apply refused_in in R as (l & x & A & I & V). unfold second in A.
  destruct m as [[|a [|b [|? ?]]]| |]; injection A as <-; try destruct I.
  2: contradiction. subst b. exists [a; x], x. split; [reflexivity|]. split; [right; left; reflexivity|exact V].
Qed.

(** the whole election without mixnet, run by three nodes: every generated transaction is accepted *)
Lemma pos_in l k : Nat.ltb k (length l) = true -> In (at_pos l k) l.
Proof. intros E. apply nth_In, Nat.ltb_lt, E. Qed.
Definition is_some {A} (o : option A) : bool := match o with Some _ => true | None => false end.
Lemma pos_as {A} (proj : Tx -> option A) mk l k : (forall t a, proj t = Some a <-> t = mk a) ->
  is_some (proj (s_tx (at_pos l k))) = true -> exists a, s_tx (at_pos l k) = mk a.
Proof. intros P E. destruct (proj (s_tx (at_pos l k))) as [a|] eqn:F; [|discriminate]. exists a. apply P, F. Qed.
Lemma pos_at l k i t : Nat.ltb k (length l) = true -> s_tx (at_pos l k) = t -> tx_id t = i -> at_id l i t.
Proof. intros E T I. exists (at_pos l k). split; [apply pos_in, E|]. split; [unfold s_id; congruence|exact T]. Qed.
(** the VotingEnd at position [k] *)
Definition is_end (t : Tx) : bool := match t with XVotingEnd _ => true | _ => false end.
Lemma pos_end h k : Nat.ltb k (length h) = true -> is_end (s_tx (at_pos h k)) = true ->
  exists ve, at_id h (ve_id ve) (XVotingEnd ve) /\ s_tx (at_pos h k) = XVotingEnd ve
    /\ forall sk s, generate_transactions true sk rnd0 s (at_pos h k) = process_voting_end sk rnd0 s ve.
Proof.
  intros E F. destruct (s_tx (at_pos h k)) eqn:X; try discriminate F. eexists. split; [eapply pos_at; eauto|].
  split; [reflexivity|]. intros sk s. unfold generate_transactions. rewrite X. reflexivity.
Qed.
Notation after k l := (ms_store (ms_from (firstn k l))) (only parsing).

(** everything that is computed about this election, in one computation *)
Notation commitments3 := (t_multiple as_commitment (after 3 plain) EID TKeyGenCommitment) (only parsing).
Notation pubkeys7 := (t_multiple as_pubkey (after 7 plain) EID TKeyGenPublicKey) (only parsing).
Definition plain11 : list STx := firstn 11 plain.
Notation share11 :=
  (generate_transactions true (key_of x0a) rnd0 (ms_store (ms_from plain11)) (at_pos plain11 4)) (only parsing).
Definition pubkey_eqb (a b : PublicKeyTx) : bool :=
  id_eqb (kp_id a) (kp_id b) && id_eqb (kp_election a) (kp_election b) && Byte.eqb (kp_trustee a) (kp_trustee b)
  && pk_eqb (kp_public a) (kp_public b) && egpk_eqb (kp_key a) (kp_key b) && cval_eqb (sv (kp_proof a)) (sv (kp_proof b)).
Lemma plain_facts :
  (checks true [] plain ms_empty = true
   /\ map s_type plain = [TElection; TKeyGenCommitment; TKeyGenCommitment; TKeyGenShare; TKeyGenShare;
        TKeyGenPublicKey; TKeyGenPublicKey; TEncryptionKey; TVote; TVote; TVotingEnd;
        TPartialDecryption; TPartialDecryption; TPartialDecryption; TPartialDecryption; TDecryption; TDecryption])
  /\ (types (generate_transactions true (key_of x0a) rnd0 (after 1 plain) (at_pos plain 0)) = Some [TKeyGenCommitment]
      /\ types (generate_transactions true (key_of x0a) rnd0 (after 3 plain) (at_pos plain 2)) = Some [TKeyGenShare]
      /\ match commitments3 with Ok cs => Some (map kc_trustee cs) | _ => None end = Some [x01; x02]
      /\ types (generate_transactions true (key_of x0a) rnd0 (after 5 plain) (at_pos plain 4)) = Some [TKeyGenPublicKey])
  /\ (types (generate_transactions true (key_of x01) rnd0 (after 7 plain) (at_pos plain 6)) = Some [TEncryptionKey]
      /\ match pubkeys7 with Ok pks => Some (map kp_trustee pks) | _ => None end = Some [x01; x02]
      /\ match pubkeys7 with Ok pks => forallb (fun p => forallb (fun q => egpk_eqb (kp_key p) (kp_key q)) pks) pks | _ => false end = true)
  /\ (types (generate_transactions true (key_of x0a) rnd0 (ms_store (ms_from plain11)) (at_pos plain 10))
        = Some [TPartialDecryption; TPartialDecryption]
      /\ is_some (as_share (s_tx (at_pos plain11 4))) = true /\ is_some (as_pubkey (s_tx (at_pos plain11 5))) = true
      /\ match share11, s_tx (at_pos plain11 5) with
         | Ok [y], XPublicKey pk => match s_tx y with XPublicKey pk' => pubkey_eqb pk' pk | _ => false end
         | _, _ => false end = true
      /\ match s_tx (at_pos plain11 4) with XShare sh => id_eqb (ks_election sh) EID | _ => false end = true
      /\ length plain11 = 11 /\ id_eqb (s_id (at_pos plain11 10)) (slot0 EID TVotingEnd) = true)
  /\ (types (generate_transactions true (key_of x0b) rnd0 (after 15 plain) (at_pos plain 14)) = Some [TDecryption]
      /\ s_type (at_pos plain 14) = TPartialDecryption).
Proof. vm_compute. repeat split. Qed.
Example plain_case : checks true [] plain ms_empty = true
  /\ map s_type plain = [TElection; TKeyGenCommitment; TKeyGenCommitment; TKeyGenShare; TKeyGenShare;
       TKeyGenPublicKey; TKeyGenPublicKey; TEncryptionKey; TVote; TVote; TVotingEnd;
       TPartialDecryption; TPartialDecryption; TPartialDecryption; TPartialDecryption; TDecryption; TDecryption].
Proof. exact (proj1 plain_facts). Qed.
Lemma plain_history k : history true (firstn k plain).
Proof.
  apply (hist_prefix true _ (skipn k plain)). rewrite firstn_skipn. apply run_history. apply plain_case.
Qed.

Example C42_case :
  is_trustee (election None) (pk_of x0a)
  /\ types (generate_transactions true (key_of x0a) rnd0 (after 1 plain) (at_pos plain 0)) = Some [TKeyGenCommitment]
  /\ (types (generate_transactions true (key_of x0a) rnd0 (after 3 plain) (at_pos plain 2)) = Some [TKeyGenShare]
      /\ distinct_indices (election None)
      /\ exists cs, range_is (stored (firstn 3 plain)) EID TKeyGenCommitment XCommitment cs /\ one_each kc_trustee (election None) cs)
  /\ types (generate_transactions true (key_of x0a) rnd0 (after 5 plain) (at_pos plain 4)) = Some [TKeyGenPublicKey].
Proof.
  destruct plain_facts as (_ & (A & B & E & D) & _). split; [exists (T x0a x01); split; [left; reflexivity|reflexivity]|].
  split; [exact A|]. split; [|exact D]. split; [exact B|]. split; [repeat constructor; cbn; intuition discriminate|].
  destruct commitments3 as [cs| |] eqn:M; try discriminate E. exists cs. split.
  - apply (t_multiple_iff _ _ (stored_holds _) _ _ _ _ _ as_commitment_iff), M.
  - injection E as E. unfold one_each. rewrite E. apply Permutation.Permutation_refl.
Qed.

(** a trustee records two commitments under different identifiers (nothing checks them); the share transaction
    the other trustee's node then generates is refused *)
Definition commitment_again : STx :=
  sgn x0a (XCommitment (mk_commitment (id_new EID TKeyGenCommitment (Some (arr_rep x77 16))) EID x01 (pk_of x0a) (arr_rep x0a 32) (any CNull))).
Definition twice : list STx := [sgn x01 (XElection (election None)); commitment x0a x01; commitment_again].
Theorem C42_share_refuted : exists h c l x, history true h /\ at_id h (kc_id c) (XCommitment c)
  /\ process_keygen_commitment (key_of x0b) rnd0 (ms_store (ms_from h)) c = Ok l /\ In x l
  /\ validate true (ms_store (ms_from h)) x <> Ok tt.
Proof.
  set (c := match s_tx commitment_again with XCommitment c => c
            | _ => mk_commitment EID EID x00 (pk_of x00) (arr_rep x00 32) (any CNull) end).
  assert (R : refused true twice (process_keygen_commitment (key_of x0b) rnd0 (ms_store (ms_from twice)) c) = true)
    by (vm_compute; reflexivity).
  apply refused_in in R as (l & x & A & B & D). exists twice, c, l, x.
  split; [apply run_history; vm_compute; reflexivity|]. split; [exists commitment_again; split; [cbn; auto|split; reflexivity]|].
  split; [exact A|]. split; assumption.
Qed.

Example C43_case :
  types (generate_transactions true (key_of x01) rnd0 (after 7 plain) (at_pos plain 6)) = Some [TEncryptionKey]
  /\ exists pks, range_is (stored (firstn 7 plain)) EID TKeyGenPublicKey XPublicKey pks
       /\ map kp_trustee pks = [x01; x02] /\ forall p q, In p pks -> In q pks -> kp_key p = kp_key q.
Proof.
  destruct plain_facts as (_ & _ & (A & E & F) & _). split; [exact A|].
  destruct pubkeys7 as [pks| |] eqn:M; try discriminate E. exists pks. injection E as E. split; [|split; [exact E|]].
  - apply (t_multiple_iff _ _ (stored_holds _) _ _ _ _ _ as_pubkey_iff), M.
  - intros p q Ip Iq. apply forallb_forall with (x := p) in F; [|exact Ip]. apply forallb_forall with (x := q) in F; [|exact Iq].
    apply egpk_eqb_eq, F.
Qed.

(** with a mixnet and threshold 2 the nodes stop after the first mix: the second trustee's node generates
    one mix, which is refused, and nobody generates anything else *)
Lemma mixed_facts : checks true [] mixed ms_empty = true /\ Nat.ltb 11 (length mixed) = true
  /\ map s_type mixed = [TElection; TKeyGenCommitment; TKeyGenCommitment; TKeyGenShare; TKeyGenShare;
       TKeyGenPublicKey; TKeyGenPublicKey; TEncryptionKey; TVote; TVote; TVotingEnd; TMix]
  /\ match s_tx (at_pos mixed 11) with XMix m => Byte.eqb (mx_index m) x00 | _ => false end = true
  /\ types (generate_transactions true (key_of x01) rnd0 (ms_store (ms_from mixed)) (at_pos mixed 11)) = Some []
  /\ types (generate_transactions true (key_of x0a) rnd0 (ms_store (ms_from mixed)) (at_pos mixed 11)) = Some []
  /\ refused true mixed (generate_transactions true (key_of x0b) rnd0 (ms_store (ms_from mixed)) (at_pos mixed 11)) = true.
Proof. vm_compute. repeat split. Qed.
Example C44_first_case : map s_type mixed = [TElection; TKeyGenCommitment; TKeyGenCommitment; TKeyGenShare; TKeyGenShare;
  TKeyGenPublicKey; TKeyGenPublicKey; TEncryptionKey; TVote; TVote; TVotingEnd; TMix].
Proof. apply mixed_facts. Qed.
Theorem C44_mixnet_refuted : exists h m, history true h /\ at_id h (mx_id m) (XMix m) /\ mx_index m = x00
  /\ types (process_mix true (key_of x01) rnd0 (ms_store (ms_from h)) m) = Some []
  /\ types (process_mix true (key_of x0a) rnd0 (ms_store (ms_from h)) m) = Some []
  /\ exists l x, process_mix true (key_of x0b) rnd0 (ms_store (ms_from h)) m = Ok l /\ In x l
       /\ validate true (ms_store (ms_from h)) x <> Ok tt.
Proof.
  destruct mixed_facts as (Ch & Ty & _ & E & A & B & D).
  destruct (s_tx (at_pos mixed 11)) as [| | | | | | |m| |] eqn:Tm; try discriminate E.
  assert (G : forall k, generate_transactions true k rnd0 (ms_store (ms_from mixed)) (at_pos mixed 11)
                        = process_mix true k rnd0 (ms_store (ms_from mixed)) m).
  { intros k. unfold generate_transactions. rewrite Tm. reflexivity. }
  exists mixed, m. split; [exact (run_history _ _ Ch)|].
  split; [eapply pos_at; [exact Ty|exact Tm|reflexivity]|].
  split; [apply byte_eqb_eq, E|]. rewrite <- !G. split; [exact A|]. split; [exact B|]. apply refused_in, D.
Qed.
(** two voters vote in different contests of the same ballot: both first mixes are refused *)
Definition vote_in (k : byte) (cs : list N) (s : rstring) : STx :=
  sgn k (XVote (mk_vote (vote_build_id EID (key_of k)) EID b1 (map (fun c => mk_encvote (n32 c) [enc (sel s) (u8v k + c)]) cs)
    (pk_of k) [authn k])).
Definition split_votes : list STx :=
  submit_all true (auto_setup (election (Some mixcfg))) [vote_in x20 [0%N] (lit "yes"); vote_in x21 [1%N] (lit "no"); votingend].
Theorem C44_first_mix_refuted : exists h ve, history true h /\ at_id h (ve_id ve) (XVotingEnd ve)
  /\ types (process_voting_end (key_of x0a) rnd0 (ms_store (ms_from h)) ve) = Some [TMix; TMix]
  /\ exists l, process_voting_end (key_of x0a) rnd0 (ms_store (ms_from h)) ve = Ok l
       /\ forall x, In x l -> validate true (ms_store (ms_from h)) x <> Ok tt.
Proof.
  assert (F : checks true [] split_votes ms_empty = true /\ Nat.ltb 10 (length split_votes) = true
    /\ is_end (s_tx (at_pos split_votes 10)) = true
    /\ types (generate_transactions true (key_of x0a) rnd0 (ms_store (ms_from split_votes)) (at_pos split_votes 10)) = Some [TMix; TMix]
    /\ refused true split_votes (generate_transactions true (key_of x0a) rnd0 (ms_store (ms_from split_votes)) (at_pos split_votes 10)) = true)
    by (vm_compute; repeat split).
  destruct F as (Ch & Le & En & Ty & Re). destruct (pos_end split_votes 10 Le En) as (ve & A & _ & G).
  exists split_votes, ve. split; [exact (run_history _ _ Ch)|]. split; [exact A|]. rewrite <- G.
  split; [exact Ty|]. apply all_refused, Re.
Qed.

Lemma pubkey_eqb_eq a b : pubkey_eqb a b = true -> a = b.
Proof.
  unfold pubkey_eqb. rewrite !andb_true_iff, !id_eqb_eq, byte_eqb_eq, pk_eqb_eq, egpk_eqb_eq, cval_eqb_eq.
  destruct a, b. cbn. intros [[[[[-> ->] ->] ->] ->] E]. f_equal. apply sub_ext, E.
Qed.
Example C45_votes_case :
  types (generate_transactions true (key_of x0a) rnd0 (ms_store (ms_from plain11)) (at_pos plain 10))
    = Some [TPartialDecryption; TPartialDecryption]
  /\ own_key_recorded (key_of x0a) (ms_store (ms_from plain11)) (stored plain11) EID
  /\ occupied (stored plain11) (slot0 EID TVotingEnd).
Proof.
  pose proof (plain_history 11 : history true plain11) as Hh.
  destruct plain_facts as (_ & _ & _ & (P & Is & Ip & E & Ee & Ln & Sl) & _).
  split; [exact P|]. split.
  - destruct (pos_as as_share XShare plain11 4 as_share_iff Is) as (sh & Ts).
    assert (G : share11 = process_keygen_share (key_of x0a) (ms_store (ms_from plain11)) sh).
    { unfold generate_transactions. rewrite Ts. reflexivity. }
    set (m := generate_transactions _ _ _ _ _) in G, E.
    destruct (pos_as as_pubkey XPublicKey plain11 5 as_pubkey_iff Ip) as (pk & Tp).
    rewrite Tp in E. destruct m as [[|y [|? ?]]| |]; try discriminate E.
    destruct (s_tx y) as [| | |pk'| | | | | |] eqn:Ty; try discriminate E. apply pubkey_eqb_eq in E. subst pk'.
    exists sh, y, pk. split; [rewrite Ts in Ee; apply id_eqb_eq, Ee|].
    split; [symmetry; exact G|]. split; [exact Ty|]. apply (hist_at_id true _ _ _ Hh).
    apply (pos_at _ 5); [rewrite Ln; reflexivity|exact Tp|reflexivity].
  - exists (at_pos plain11 10). split; [|apply id_eqb_eq, Sl].
    apply (proj2 (hist_stored true plain11 (at_pos plain11 10) Hh)). apply pos_in. rewrite Ln. reflexivity.
Qed.
(** an election without contests but with a ballot naming contests: votes are accepted, nothing is ever decrypted *)
Definition no_contests : ElectionTx :=
  mk_election EID (pk_of x01) [T x0a x01; T x0b x02] x02 [auth1] x01 None [ballot1] [] no_props.
Definition uncovered : list STx := submit_all true (auto_setup no_contests) (voting ++ [votingend]).
Theorem C45_coverage_refuted : exists h ve v, history true h /\ at_id h (ve_id ve) (XVotingEnd ve)
  /\ at_id h (vt_id v) (XVote v) /\ vt_election v = ve_election ve /\ vt_votes v <> []
  /\ process_voting_end (key_of x0a) rnd0 (ms_store (ms_from h)) ve = Ok [].
Proof.
  assert (F : checks true [] uncovered ms_empty = true /\ Nat.ltb 10 (length uncovered) = true /\ Nat.ltb 8 (length uncovered) = true
    /\ is_end (s_tx (at_pos uncovered 10)) = true /\ is_some (as_vote (s_tx (at_pos uncovered 8))) = true
    /\ match s_tx (at_pos uncovered 10), s_tx (at_pos uncovered 8) with
       | XVotingEnd ve, XVote v => id_eqb (vt_election v) (ve_election ve) && negb (Nat.eqb (length (vt_votes v)) 0)
       | _, _ => false end = true
    /\ types (generate_transactions true (key_of x0a) rnd0 (ms_store (ms_from uncovered)) (at_pos uncovered 10)) = Some [])
    by (vm_compute; repeat split).
  destruct F as (Ch & Le & Lv & En & Iv & E & Ty). destruct (pos_end uncovered 10 Le En) as (ve & A & B & G).
  destruct (pos_as as_vote XVote uncovered 8 as_vote_iff Iv) as (v & Tv).
  exists uncovered, ve, v. split; [exact (run_history _ _ Ch)|]. split; [exact A|].
  split; [eapply pos_at; [exact Lv|exact Tv|reflexivity]|].
  rewrite B, Tv in E. apply andb_prop in E as [E1 E2]. split; [apply id_eqb_eq, E1|].
  split; [intros X; rewrite X in E2; discriminate E2|]. rewrite <- G. apply nothing, Ty.
Qed.
(** a vote with two selection lists for one contest: the second partial decryption is refused *)
Definition vote_twice : STx :=
  sgn x20 (XVote (mk_vote (vote_build_id EID (key_of x20)) EID b1
    [mk_encvote (n32 0) [enc (sel (lit "yes")) 1]; mk_encvote (n32 0) [enc (sel (lit "no")) 2]] (pk_of x20) [authn x20])).
Definition repeated : list STx := submit_all true (auto_setup (election None)) [vote_twice; votingend].
Theorem C45_accepted_refuted : exists h ve l x, history true h /\ at_id h (ve_id ve) (XVotingEnd ve)
  /\ process_voting_end (key_of x0a) rnd0 (ms_store (ms_from h)) ve = Ok l /\ In x l
  /\ validate true (ms_store (ms_from h)) x <> Ok tt.
Proof.
  assert (F : checks true [] repeated ms_empty = true /\ Nat.ltb 9 (length repeated) = true
    /\ is_end (s_tx (at_pos repeated 9)) = true
    /\ refused true repeated (second (@generate_transactions Toy ToyT true (key_of x0a) rnd0 (ms_store (ms_from repeated)) (at_pos repeated 9))) = true)
    by (vm_compute; repeat split).
  destruct F as (Ch & Le & En & Re). destruct (pos_end repeated 9 Le En) as (ve & A & _ & G). specialize (G (key_of x0a)).
  destruct (second_refused _ _ _ Re) as (l & x & E & I & V). rewrite G in E.
  exists repeated, ve, l, x. split; [exact (run_history _ _ Ch)|]. split; [exact A|]. auto.
Qed.
(** a threshold of 1 and a mixnet: the first mix is the last; the nodes complete the election *)
Definition one_mix : ElectionTx :=
  mk_election EID (pk_of x01) [T x0a x01; T x0b x02] x01 [auth1] x01 (Some mixcfg) [ballot1] [contest0] no_props.
Example C45_mix_case :
  map s_type (skipn 11 (auto one_mix voting)) = [TMix; TPartialDecryption; TPartialDecryption; TPartialDecryption;
    TPartialDecryption; TDecryption; TDecryption] /\ checks true [] (auto one_mix voting) ms_empty = true.
Proof. vm_compute. repeat split. Qed.

Example C46_case :
  types (generate_transactions true (key_of x0b) rnd0 (after 15 plain) (at_pos plain 14)) = Some [TDecryption]
  /\ s_type (at_pos plain 14) = TPartialDecryption.
Proof. apply plain_facts. Qed.

Print Assumptions C42_commitment_accepted.
Print Assumptions C42_share_accepted_partial.
Print Assumptions C42_public_key_accepted.
Print Assumptions C42_share_refuted.
Print Assumptions C43_encryption_key_accepted.
Print Assumptions C43_encryption_key_generated.
Print Assumptions C44_first_mix_partial.
Print Assumptions C44_first_mix_all_contests.
Print Assumptions C44_next_mix_rejected.
Print Assumptions C44_mixnet_refuted.
Print Assumptions C44_first_mix_refuted.
Print Assumptions C45_vote_partials_partial.
Print Assumptions C45_mix_partials_partial.
Print Assumptions C45_coverage_refuted.
Print Assumptions C45_accepted_refuted.
Print Assumptions C46_decryption_accepted.
