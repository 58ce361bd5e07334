(** * C90: spoiled ballots. *)
From Verif Require Import Base BaseFacts Utf8 Cbor Ident BuildId Crypto Types Serde Store SpecStore StoreFacts Prost Validate ValidateFacts SpecHist HistFacts SpecValid ValidFacts
  Exonum Audit Trustee Tasks SpecAgree AgreeFacts Tally SpecTally TallyFacts Results SpecSpoiled SpoilFacts Toy ToyT Scene Props_Audit Props_Tally Props_Json.
From Coq Require Import Permutation ZifyBool ZifyNat ZifyN.
From Coq Require Strings.String.
Import String.StringSyntax.
Open Scope list_scope.

(** ** What the tally makes of spoiled ballots *)
Lemma sub_text (s t : Selection) : text s = text t -> sel_text s = sel_text t.
Proof. apply sub_ext. Qed.
Lemma twice_split (v : list Selection) : no_repeat v \/ exists p a q b r, v = p ++ a :: q ++ b :: r /\ sel_text a = sel_text b.
Proof.
  induction v as [|s v IH]; [left; constructor|].
  destruct (existsb (fun t => bytes_eqb (text t) (text s)) v) eqn:E.
  - right. apply existsb_exists in E as (t & I & Q). apply bytes_eqb_eq in Q. apply in_split in I as (q & r & ->).
    exists [], s, q, t, r. split; [reflexivity|]. symmetry. apply sub_text, Q.
  - destruct IH as [N|(p & a & q & b & r & -> & Q)]; [|right; exists (s :: p), a, q, b, r; auto]. left. unfold no_repeat. cbn [map]. constructor; [|exact N].
    intros I. apply in_map_iff in I as (t & Q & I). assert (X : existsb (fun t => bytes_eqb (text t) (text s)) v = true); [|congruence].
    apply existsb_exists. exists t. split; [exact I|]. apply bytes_eqb_eq, Q.
Qed.
Lemma clean_repeat c v : ~ spoiled c v -> no_repeat v.
Proof. intros N. destruct (twice_split v) as [X|(p & a & q & b & r & E & Q)]; [exact X|]. destruct N. exact (sp_twice c v p a q b r E Q). Qed.
Lemma known_dec c t : candidate_of c t \/ ~ candidate_of c t.
Proof.
  destruct (existsb (fun k => rs_eqb (cand_id k) t) (cont_candidates c)) eqn:E.
  - left. apply existsb_exists in E as (k & I & Q). exists k. split; [exact I|]. apply sub_ext, bytes_eqb_eq, Q.
  - right. intros (k & I & <-). assert (X : existsb (fun k' => rs_eqb (cand_id k') (cand_id k)) (cont_candidates c) = true); [|congruence].
    apply existsb_exists. exists k. split; [exact I|]. apply bytes_eqb_refl.
Qed.
Lemma clean_eligible c v name : ~ spoiled c v -> named v name -> eligible c name.
Proof.
  intros N (s & I & <-). destruct (sel_write_in s) eqn:W.
  - right. destruct (cont_write_in c) eqn:A; [reflexivity|]. destruct N. exact (sp_write_in c v s I W A).
  - left. destruct (known_dec c (sel_text s)) as [K|K]; [exists (sel_text s); split; [exact K|reflexivity]|].
    destruct N. exact (sp_unknown c v s I W K).
Qed.
Lemma clean_one c v : cont_type c = Plurality -> ~ spoiled c v -> length v = 1.
Proof.
  intros P N. destruct v as [|s [|t v]]; [destruct N; apply sp_nothing; reflexivity|reflexivity|].
  destruct N. apply sp_many; [exact P|cbn [length]; lia].
Qed.
Lemma prefers_named v a b : prefers v a b -> named v a /\ named v b.
Proof. intros (s & t & I & J & A & B & _). split; [exists s|exists t]; auto. Qed.

(** nothing is ever set aside: whatever the ballots, none is listed as spoiled and each is part of the number of votes *)
Theorem C90_none_listed : forall order ct votes r, tally order ct votes = Ok r -> tl_spoiled r = [] /\ tl_votes r = length votes.
Proof. intros order ct votes r H. unfold tally in H. apply bind_ok in H as (t & _ & H). injection H as <-. split; reflexivity. Qed.
(** if no ballot is spoiled: there is a result (for the types that are implemented), only eligible names get a total, and in a
    plurality contest the totals add up to the number of ballots *)
Theorem C90_clean_partial : forall order c votes, fair order -> cont_type c <> SchulzeRatio -> cont_type c <> BordaDowdall ->
  (forall v, In v votes -> ~ spoiled c v) ->
  exists r, tally order (cont_type c) votes = Ok r /\ tl_votes r = length votes
    /\ (pairwise (cont_type c) = false -> forall name n, In (name, n) (tl_totals r) -> eligible c name)
    /\ (pairwise (cont_type c) = true -> (forall v a, In v votes -> named v a -> plain_name a) ->
          forall k n, In (k, n) (tl_totals r) -> exists a b, k = label (a, b) /\ eligible c a /\ eligible c b)
    /\ (cont_type c = Plurality -> grand (tl_totals r) = N.of_nat (length votes)).
Proof.
  intros order c votes F N1 N2 Cl.
  assert (Nr : Forall no_repeat votes) by (apply Forall_forall; intros v I; exact (clean_repeat c v (Cl v I))).
  destruct (proj2 (C56_result_partial order (cont_type c) votes) (conj N1 (conj N2 (fun _ => Nr)))) as (r & R). exists r.
  assert (El : forall v name, In v votes -> named v name -> eligible c name) by (intros v name I; exact (clean_eligible c v name (Cl v I))).
  split; [exact R|].
  assert (Lists : pairwise (cont_type c) = false -> tl_votes r = length votes /\ forall name n, In (name, n) (tl_totals r) -> eligible c name).
  { intros Pw. assert (G : exists r' worth, tally order (cont_type c) votes = Ok r' /\ tl_votes r' = length votes /\ reports worth votes (tl_totals r')).
    { destruct (positional (cont_type c)) eqn:Po.
      - destruct (C54_borda_totals order votes (cont_type c) _ F Po Nr (candidates_count votes)) as (r' & A & B & D). eauto.
      - assert (Q : exists amt, (cont_type c = Plurality /\ amt = (fun _ => 1%N)) \/ (cont_type c = Approval /\ amt = (fun _ => 1%N)) \/ (cont_type c = Score /\ amt = score)).
        { destruct (cont_type c); try discriminate Pw; try discriminate Po; try congruence; [exists (fun _ => 1%N)|exists score|exists (fun _ => 1%N)]; tauto. }
        destruct Q as (amt & Q). destruct (C54_plain_totals order votes (cont_type c) amt F Q) as (r' & A & B & D). eauto. }
    destruct G as (r' & worth & A & B & _ & D). rewrite R in A. injection A as <-. split; [exact B|].
    intros name n I. apply D in I as [(v & Iv & Nv) _]. exact (El v name Iv Nv). }
  split; [|split; [|split]].
  - exact (proj2 (C90_none_listed order (cont_type c) votes r R)).
  - intros Pw. exact (proj2 (Lists Pw)).
  - intros Pw Pn k n I. destruct (C54_pair_totals_partial order votes (cont_type c) F Pw Nr Pn) as (r' & A & _ & _ & D).
    rewrite R in A. injection A as <-. apply D in I as (a & b & -> & (v & Iv & Pr) & _). apply prefers_named in Pr as [Na Nb].
    exists a, b. split; [reflexivity|]. split; [exact (El v a Iv Na)|exact (El v b Iv Nb)].
  - intros P. rewrite P in R. rewrite (C55_sum_of_selections order votes r F R). f_equal. clear -Cl P.
    induction votes as [|v votes IH]; [reflexivity|]. cbn [concat length]. rewrite app_length, (clean_one c v P (Cl v (or_introl eq_refl))), IH; [reflexivity|].
    intros w I. apply Cl. right. exact I.
Qed.

Lemma times_pos v name n : named v name -> times (fun _ => 1%N) v name n -> (0 < n)%N.
Proof.
  intros (s & I & E) T. induction T as [c|t v c n Et T IH|t v c n Et T IH]; [destruct I|lia|]. destruct I as [->|I]; [congruence|exact (IH I E)].
Qed.
Lemma sum_pos (ns : list N) n : In n ns -> (n <= fold_right N.add 0 ns)%N.
Proof. induction ns as [|m ns IH]; [intros []|]. cbn [fold_right]. intros [->|I]; [lia|]. specialize (IH I). lia. Qed.
(** every name on every ballot, spoiled or not, gets votes in a plurality or approval contest *)
Theorem C90_all_counted : forall order ct votes v name, fair order -> ct = Plurality \/ ct = Approval -> In v votes -> named v name ->
  exists r n, tally order ct votes = Ok r /\ In (name, n) (tl_totals r) /\ (0 < n)%N.
Proof.
  intros order ct votes v name F T I Nv.
  destruct (C54_plain_totals order votes ct (fun _ => 1%N) F) as (r & R & _ & _ & D); [tauto|].
  assert (Ex : exists ns, Forall2 (fun v m => times (fun _ => 1%N) v name m) votes ns).
  { clear. induction votes as [|v votes (ns & IH)]; [exists []; constructor|]. eexists (_ :: ns). constructor; [apply times_iff; reflexivity|exact IH]. }
  destruct Ex as (ns & Fn). exists r, (fold_right N.add 0%N ns). split; [exact R|]. split; [apply D; split; [eauto|exists ns; auto]|].
  assert (P : exists m, In m ns /\ (0 < m)%N).
  { clear -Fn I Nv. induction Fn as [|w m votes ns Tm Fn IH]; [destruct I|]. destruct I as [->|I]; [exists m; split; [left; reflexivity|exact (times_pos _ _ _ Nv Tm)]|].
    destruct (IH I) as (k & J & P). exists k. split; [right; exact J|exact P]. }
  destruct P as (m & J & P). pose proof (sum_pos _ _ J). lia.
Qed.

(** ** No check and no node reads the rules of a contest *)
Section Blind.
  Context {C : Crypto}.
  (** verdicts, with the error or panic *)
  Theorem C90_verdict : forall dbg s s' x, store_like s s' -> validate dbg s x = validate dbg s' x.
  Proof. intros dbg s s' x H. exact (validate_like H dbg x). Qed.
  (** what nodes send *)
  Theorem C90_follow_ups {TC : TCrypto} : forall dbg sk r s s' x y, store_like s s' -> stx_like x y ->
    generate_transactions dbg sk r s x = generate_transactions dbg sk r s' y.
  Proof. intros dbg sk r s s' x y H L. exact (follow_like dbg sk r H L). Qed.
  (** had the authority signed other contests (with other candidates, types and rules on write-ins), exactly the same
      transactions would have been recorded around its election *)
  Theorem C90_any_contests : ed_sign_verifies -> forall dbg p el el' g sk q, ed_public sk = el_authority el -> el_like el el' ->
    history dbg (p ++ mk_stx (XElection el) g :: q) ->
    history dbg (p ++ mk_stx (XElection el') (ed_sign sk (tx_bytes (XElection el'))) :: q).
  Proof.
    intros Law dbg p el el' g sk q K L. set (x := mk_stx (XElection el) g). set (y := mk_stx (XElection el') _).
    assert (X : stx_like x y) by (right; exists el, el'; auto).
    assert (Id : s_id x = s_id y) by exact (like_id X).
    assert (Fl : forall q, Forall2 stx_like (p ++ x :: q) (p ++ y :: q)).
    { intros q'. apply Forall2_app; [|constructor; [exact X|]]; [induction p|induction q']; constructor; auto; left; reflexivity. }
    induction q as [|z q IH] using rev_ind; intros Hh.
    - apply hist_snoc_inv in Hh as (Hp & Fr & V). constructor; [exact Hp|rewrite <- Id; exact Fr|].
      unfold validate in *. rewrite <- Id. change (s_type y) with (s_type x).
      destruct (@fail_if VError _ _) as [[]|e|k]; cbn [bind] in V |- *; [|discriminate V..].
      assert (Sg : verify_signature y = Ok tt).
      { unfold verify_signature, y. cbn [s_tx s_sig tx_public]. destruct (like_eq L) as (cs & ps & _ & E).
        assert (A : el_authority el' = ed_public sk) by (rewrite E; cbn [el_authority]; auto). rewrite A, Law. reflexivity. }
      rewrite Sg. cbn [bind]. destruct (verify_signature x) as [[]|e|k]; cbn [bind] in V; [|discriminate V..].
      unfold x, y in *. cbn [s_tx validate_tx] in *. destruct (like_eq L) as (cs & ps & _ & ->). exact V.
    - rewrite app_comm_cons, app_assoc in Hh |- *. apply hist_snoc_inv in Hh as (Hp & Fr & V). constructor; [exact (IH Hp)| |].
      + intros w I. apply in_app_or in I as [I|[<-|I]]; [|rewrite <- Id|]; apply Fr, in_or_app; [left; exact I|right; left; reflexivity|right; right; exact I].
      + rewrite <- V. symmetry. apply C90_verdict, store_of_like, from_like, Fl.
  Qed.
End Blind.

(** ** The contest of [Scene]: plurality, candidates "yes" and "no", no write-ins *)
Section Cases.
  #[local] Existing Instance Toy.
  Definition stranger : Selection := sel (lit "mallory").
  Definition wrote : Selection := mk_selection true (n32 0) (lit "mallory").
  Definition one_ballot (v : list Selection) : list STx := setup None ++ vote_sels v.
  Definition kinds : list (list Selection) := [[]; [sel (lit "yes"); sel (lit "no")]; [sel (lit "yes"); sel (lit "yes")]; [wrote]; [stranger]].
  (** the ballot is recorded and published, and the audit passes *)
  Definition published_at (el : ElectionTx) (c : Contest) (l : list STx) (v : list Selection) : bool :=
    checks true [] l ms_empty && isok (audit true (stored l)) && match published (el_id el) (cont_index c) l with [w] => sels_eqb w v | _ => false end.
  Lemma kinds_recorded : forallb (fun v => published_at (election None) contest0 (one_ballot v) v) kinds = true.
  Proof. vm_compute. reflexivity. Qed.
  Lemma kinds_spoiled : Forall (spoiled contest0) kinds.
  Proof.
    assert (Sd : forall t, existsb (fun k => rs_eqb (cand_id k) t) (cont_candidates contest0) = false -> ~ candidate_of contest0 t).
    { intros t H (k & I & <-). assert (X : existsb (fun k' => rs_eqb (cand_id k') (cand_id k)) (cont_candidates contest0) = true); [|congruence].
      apply existsb_exists. exists k. split; [exact I|]. apply bytes_eqb_refl. }
    unfold kinds. repeat apply Forall_cons; [..|apply Forall_nil].
    - apply sp_nothing. reflexivity.
    - apply sp_many; [reflexivity|cbn [length]; lia].
    - exact (sp_twice contest0 _ [] _ [] _ [] eq_refl eq_refl).
    - apply (sp_write_in contest0 _ wrote); [left|..]; reflexivity.
    - apply (sp_unknown contest0 _ stranger); [left; reflexivity|reflexivity|]. apply Sd. reflexivity.
  Qed.
  Lemma shown l el c v : published_at el c l v = true -> In (sgn x01 (XElection el)) l -> el_contests el = [c] ->
    cont_type c = Plurality -> spoiled c v ->
    history true l /\ In (sgn x01 (XElection el)) l /\ el_contests el = [c]
      /\ isok (audit true (stored l)) = true /\ published (el_id el) (cont_index c) l = [v] /\ spoiled c v
      /\ forall order, exists r, tally order (cont_type c) (published (el_id el) (cont_index c) l) = Ok r /\ tl_votes r = 1 /\ tl_spoiled r = [].
  Proof.
    intros H I E T Sp. apply andb_prop in H as [H Hp]. apply andb_prop in H as [Hh Ha]. assert (P : published (el_id el) (cont_index c) l = [v]).
    { destruct (published (el_id el) (cont_index c) l) as [|w [|w' ws]]; try discriminate Hp. apply sels_eqb_eq in Hp. rewrite Hp. reflexivity. }
    split; [exact (run_history _ _ Hh)|]. split; [exact I|]. split; [exact E|]. split; [exact Ha|]. split; [exact P|]. split; [exact Sp|].
    intros order. rewrite P, T. eexists. split; [reflexivity|]. split; reflexivity.
  Qed.
  Lemma in_setup v : In (sgn x01 (XElection (election None))) (one_ballot v).
  Proof. apply in_or_app. left. left. reflexivity. Qed.
  (** every one of these five spoiled ballots is recorded and published, passes the audit, is counted, and is not listed *)
  Theorem C90_set_aside_refuted : Forall (fun v => exists l el c, history true l /\ In (sgn x01 (XElection el)) l /\ el_contests el = [c]
      /\ isok (audit true (stored l)) = true /\ published (el_id el) (cont_index c) l = [v] /\ spoiled c v
      /\ forall order, exists r, tally order (cont_type c) (published (el_id el) (cont_index c) l) = Ok r /\ tl_votes r = 1 /\ tl_spoiled r = []) kinds.
  Proof.
    apply Forall_forall. intros v I. pose proof (proj1 (forallb_forall _ _) kinds_recorded v I) as H. pose proof (proj1 (Forall_forall _ _) kinds_spoiled v I) as Sp.
    exists (one_ballot v), (election None), contest0. apply shown; [exact H| |reflexivity|reflexivity|exact Sp].
    exact (in_setup v).
  Qed.
  Lemma stranger_wins : winner straight (ms_store (ms_from (one_ballot [stranger]))) EID = Ok (sv (lit "mallory")).
  Proof. vm_compute. reflexivity. Qed.
  (** and somebody who is not a candidate, where nobody may be written in, is printed as the winner of an audited election *)
  Theorem C90_elected_refuted : exists l el c order w, history true l /\ In (sgn x01 (XElection el)) l /\ el_contests el = [c]
    /\ isok (audit true (stored l)) = true /\ fair order
    /\ winner order (ms_store (ms_from l)) (el_id el) = Ok w /\ ~ eligible c w.
  Proof.
    exists (one_ballot [stranger]), (election None), contest0, straight, (sv (lit "mallory")).
    split; [apply run_history; vm_compute; reflexivity|]. split; [left; reflexivity|]. split; [reflexivity|]. split; [vm_compute; reflexivity|].
    split; [exact straight_fair|]. split; [exact stranger_wins|]. intros [(t & (k & I & <-) & E)|E]; [|discriminate E].
    cbn in I. destruct I as [<-|[<-|[]]]; discriminate E.
  Qed.
  (** ballots that are not spoiled, and an election with other contests *)
  Definition contest1 : Contest := mk_contest (cont_id contest0) (cont_index contest0) Score (cont_winners contest0) true [] no_props.
  Example C90_case : ~ spoiled contest0 [sel (lit "yes")] /\ ~ spoiled contest0 [sel (lit "no")]
    /\ tally straight (cont_type contest0) [[sel (lit "yes")]; [sel (lit "no")]; [sel (lit "yes")]] = Ok (mk_tally 3 [(sv (lit "yes"), 2%N); (sv (lit "no"), 1%N)] []).
  Proof.
    assert (G : forall s, sel_write_in s = false -> candidate_of contest0 (sel_text s) -> ~ spoiled contest0 [s]).
    { intros s W K [E|_ L|p a q b r E _|t [<-|[]] X _|t [<-|[]] _ X]; [discriminate E|cbn [length] in L; lia| |congruence|exact (X K)].
      apply (f_equal (@length Selection)) in E. rewrite !app_length in E. cbn [length] in E. rewrite app_length in E. cbn [length] in E. lia. }
    split; [|split; [|vm_compute; reflexivity]]; apply G; try reflexivity.
    - eexists. split; [left|]; reflexivity.
    - eexists. split; [right; left|]; reflexivity.
  Qed.
  (** the recorded election, had its contest counted scores and let voters write in anybody *)
  Definition election1 : ElectionTx :=
    mk_election EID (pk_of x01) [T x0a x01; T x0b x02] x02 [auth1] x01 None [ballot1] [contest1] no_props.
  Example C90_contests_case : ed_sign_verifies /\ ed_public (key_of x01) = el_authority (election None) /\ el_like (election None) election1
    /\ checks true [] (one_ballot [stranger]) ms_empty = true
    /\ checks true [] (sgn x01 (XElection election1) :: tl (one_ballot [stranger])) ms_empty = true.
  Proof.
    split; [exact toy_ed_sign_verifies|]. split; [reflexivity|]. split; [repeat split; discriminate|]. split; vm_compute; reflexivity.
  Qed.
End Cases.
Print Assumptions C90_clean_partial.
Print Assumptions C90_none_listed.
Print Assumptions C90_all_counted.
Print Assumptions C90_verdict.
Print Assumptions C90_follow_ups.
Print Assumptions C90_any_contests.
Print Assumptions C90_set_aside_refuted.
Print Assumptions C90_elected_refuted.
