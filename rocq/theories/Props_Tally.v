(** * Props_Tally: C54-C57 and C63 (tallies). *)
From Verif Require Import Base BaseFacts Utf8 Cbor Ident BuildId Crypto Types Serde Store Prost Validate ValidateFacts SpecHist HistFacts SpecStore StoreFacts SpecValid ValidFacts
  Tally SpecTally TallyFacts Toy Scene.
From Coq Require Import Permutation ZifyBool ZifyNat ZifyN.
From Coq Require Strings.String.
Import String.StringSyntax.
Open Scope list_scope.

(** ** C54 *)
(** plurality, approval and score: every candidate's total is the sum over the ballots *)
Theorem C54_plain_totals : forall order votes ct amt, fair order ->
  (ct = Plurality /\ amt = (fun _ => 1%N)) \/ (ct = Approval /\ amt = (fun _ => 1%N)) \/ (ct = Score /\ amt = score) ->
  exists r, tally order ct votes = Ok r /\ tl_votes r = length votes /\ reports (times amt) votes (tl_totals r).
Proof.
  intros order votes ct amt F [[-> ->]|[[-> ->]|[-> ->]]]; (eexists; split; [reflexivity|]; split; [reflexivity|]);
    apply plain_reports, F.
Qed.
Definition borda_points (ct : ContestType) (n : nat) (m : nat) (i : N) : option N :=
  match ct with
  | Borda => Some (N.of_nat n - i - 1)%N
  | BordaClassic => Some (N.of_nat n - i)%N
  | BordaModifiedClassic => Some (N.of_nat m - i)%N
  | _ => None
  end.
Definition pairwise (ct : ContestType) : bool :=
  match ct with Condorcet | SchulzeWinning | SchulzeMargin => true | _ => false end.
Definition positional (ct : ContestType) : bool :=
  match ct with Borda | BordaClassic | BordaModifiedClassic => true | _ => false end.
(** the positional types: a ballot gives points by place, when no ballot repeats a candidate *)
Theorem C54_borda_totals : forall order votes ct n, fair order -> positional ct = true -> Forall no_repeat votes -> candidates votes n ->
  exists r, tally order ct votes = Ok r /\ tl_votes r = length votes
    /\ reports (ranked_worth (fun m i => match borda_points ct n m i with Some p => p | None => 0%N end)) votes (tl_totals r).
Proof.
  intros order votes ct n F P ND Cn.
  assert (G : forall points, exists t, count_borda order points (map sort votes) = Ok t).
  { intros points. unfold count_borda. rewrite checked_ok by (apply no_repeat_sorts, ND). cbn [bind]. eauto. }
  destruct ct; try discriminate P; unfold tally; cbn [borda_points].
  - destruct (G (fun n m i => n - i - 1)%N) as (t & E). rewrite E. eexists. split; [reflexivity|]. split; [reflexivity|].
    apply (borda_reports order F _ votes n t ND Cn E).
  - destruct (G (fun n m i => n - i)%N) as (t & E). rewrite E. eexists. split; [reflexivity|]. split; [reflexivity|].
    apply (borda_reports order F _ votes n t ND Cn E).
  - destruct (G (fun n m i => m - i)%N) as (t & E). rewrite E. eexists. split; [reflexivity|]. split; [reflexivity|].
    apply (borda_reports order F _ votes n t ND Cn E).
Qed.
(** the pairwise types, when no candidate's text contains the separator of the labels *)
Theorem C54_pair_totals_partial : forall order votes ct, fair order -> pairwise ct = true -> Forall no_repeat votes ->
  (forall v c, In v votes -> named v c -> plain_name c) ->
  exists r, tally order ct votes = Ok r /\ tl_votes r = length votes /\ NoDup (map fst (tl_totals r))
    /\ forall k n, In (k, n) (tl_totals r) <->
         exists a b, k = label (a, b) /\ (exists v, In v votes /\ prefers v a b) /\ total_by pair_worth votes (a, b) n.
Proof.
  intros order votes ct F P ND PN.
  assert (G : exists t, count_pairs order (map sort votes) = Ok t).
  { unfold count_pairs. rewrite checked_ok by (apply no_repeat_sorts, ND). cbn [bind]. eauto. }
  destruct G as (t & E). destruct (pairs_reports order F votes t ND PN E) as [A B].
  destruct ct; try discriminate P; unfold tally; rewrite E; (eexists; split; [reflexivity|]; split; [reflexivity|]; split; [exact A|exact B]).
Qed.

Lemma total_perm {K} (worth : list Selection -> K -> N -> Prop) votes votes' k n :
  Permutation votes votes' -> total_by worth votes k n -> total_by worth votes' k n.
Proof.
  intros P (ns & F & ->). destruct (Permutation_Forall2 P F) as (ns' & P' & F'). exists ns'. split; [exact F'|].
  clear -P'. induction P' as [|x l l' P IH|x y l|l l' l'' P IH P' IH']; cbn [fold_right]; lia.
Qed.
Lemma some_perm (Q : list Selection -> Prop) votes votes' :
  Permutation votes votes' -> (exists v, In v votes /\ Q v) -> exists v, In v votes' /\ Q v.
Proof. intros P (v & A & B). exists v. split; [eapply Permutation_in; eassumption|exact B]. Qed.
Lemma same_lines (t t' : list (bytes * N)) :
  NoDup (map fst t) -> NoDup (map fst t') -> (forall k n, In (k, n) t <-> In (k, n) t') -> Permutation t t'.
Proof.
  intros A B E. apply NoDup_Permutation; [eapply NoDup_map_inv; exact A|eapply NoDup_map_inv; exact B|].
  intros [k n]. apply E.
Qed.
Lemma reports_same worth votes votes' t t' : Permutation votes votes' ->
  reports worth votes t -> reports worth votes' t' -> Permutation t t'.
Proof.
  intros P [A B] [A' B']. apply same_lines; [assumption..|]. intros k n. rewrite B, B'.
  split; intros [X Y]; (split; [eapply some_perm; [|exact X]|eapply total_perm; [|exact Y]]); first [exact P|apply Permutation_sym, P].
Qed.
Lemma candidates_perm votes votes' n : Permutation votes votes' -> candidates votes n -> candidates votes' n.
Proof.
  intros P (l & A & B & ->). exists l. split; [exact A|]. split; [|reflexivity]. intros c. rewrite B.
  split; apply some_perm; [exact P|apply Permutation_sym, P].
Qed.
(** the order of the ballots, and the order in which the counts are listed, do not matter *)
Theorem C54_ballot_order_partial : forall order order' ct votes votes' r, fair order -> fair order' -> Permutation votes votes' ->
  (pairwise ct = true -> forall v c, In v votes -> named v c -> plain_name c) ->
  tally order ct votes = Ok r ->
  exists r', tally order' ct votes' = Ok r' /\ tl_votes r' = tl_votes r /\ tl_votes r = length votes
    /\ Permutation (tl_totals r) (tl_totals r').
Proof.
  intros order order' ct votes votes' r F F' P PN H.
  assert (Plain : forall amt, (ct = Plurality /\ amt = (fun _ => 1%N)) \/ (ct = Approval /\ amt = (fun _ => 1%N)) \/ (ct = Score /\ amt = score) ->
    exists r', tally order' ct votes' = Ok r' /\ tl_votes r' = tl_votes r /\ tl_votes r = length votes /\ Permutation (tl_totals r) (tl_totals r')).
  { intros amt A. destruct (C54_plain_totals order votes ct amt F A) as (r1 & E1 & L1 & R1).
    destruct (C54_plain_totals order' votes' ct amt F' A) as (r2 & E2 & L2 & R2). rewrite H in E1. injection E1 as <-.
    exists r2. split; [exact E2|]. rewrite L1, L2, (Permutation_length P). repeat split. eapply reports_same; eassumption. }
  assert (ND : (positional ct = true \/ pairwise ct = true) -> Forall no_repeat votes).
  { intros T. destruct (repeat_dec votes) as [X|X]; [exact X|]. exfalso. rewrite <- no_repeat_sorts in X.
    destruct ct; destruct T as [T|T]; try discriminate T; unfold tally, count_pairs, count_borda in H; rewrite checked_panics in H by exact X; discriminate H. }
  destruct (positional ct) eqn:Po.
  - specialize (ND (or_introl eq_refl)). assert (ND' : Forall no_repeat votes') by (eapply Permutation_Forall; eassumption).
    pose proof (candidates_count votes) as Cn. set (n := different _ _) in Cn. clearbody n.
    destruct (C54_borda_totals order votes ct n F Po ND Cn) as (r1 & E1 & L1 & R1).
    destruct (C54_borda_totals order' votes' ct n F' Po ND' (candidates_perm _ _ _ P Cn)) as (r2 & E2 & L2 & R2).
    rewrite H in E1. injection E1 as <-. exists r2. split; [exact E2|]. rewrite L1, L2, (Permutation_length P). repeat split.
    eapply reports_same; eassumption.
  - destruct (pairwise ct) eqn:Pa.
    + specialize (ND (or_intror eq_refl)). specialize (PN eq_refl). assert (ND' : Forall no_repeat votes') by (eapply Permutation_Forall; eassumption).
      destruct (C54_pair_totals_partial order votes ct F Pa ND PN) as (r1 & E1 & L1 & N1 & R1).
      destruct (C54_pair_totals_partial order' votes' ct F' Pa ND') as (r2 & E2 & L2 & N2 & R2).
      { intros v c Hv. apply PN. eapply Permutation_in; [apply Permutation_sym, P|exact Hv]. }
      rewrite H in E1. injection E1 as <-. exists r2. split; [exact E2|]. rewrite L1, L2, (Permutation_length P). repeat split.
      apply same_lines; [assumption..|]. intros k n. rewrite R1, R2.
      split; intros (a & b & -> & X & Y); exists a, b; (split; [reflexivity|]); (split; [eapply some_perm; [|exact X]|eapply total_perm; [|exact Y]]);
        first [exact P|apply Permutation_sym, P].
    + destruct ct; try discriminate Po; try discriminate Pa; try discriminate H.
      * apply (Plain (fun _ => 1%N)). auto.
      * apply (Plain score). auto.
      * apply (Plain (fun _ => 1%N)). auto.
Qed.

(** Voters choose the texts.  Two different pairs may have the same label; then only one of the two
    totals is reported, whatever the listing order, and it depends on that order which. *)
Definition s_ (t : rstring) (n : N) : Selection := mk_selection false (u_of 4 n) t.
Definition clash : list (list Selection) :=
  [[s_ (lit "x") 0; s_ (lit "> y") 1]; [s_ (lit "x") 0; s_ (lit "> y") 1]; [s_ (lit "x >") 0; s_ (lit "y") 1]].
Definition straight : forall K, list (K * N) -> list (K * N) := fun _ l => l.
Definition backward : forall K, list (K * N) -> list (K * N) := fun _ l => rev l.
Lemma straight_fair : fair straight.
Proof. intros K l. reflexivity. Qed.
Lemma backward_fair : fair backward.
Proof. intros K l. apply Permutation_sym, Permutation_rev. Qed.
Theorem C54_listing_order_refuted : exists order order' votes r r', fair order /\ fair order'
  /\ tally order Condorcet votes = Ok r /\ tally order' Condorcet votes = Ok r' /\ ~ Permutation (tl_totals r) (tl_totals r').
Proof.
  exists straight, backward, clash. do 2 eexists. split; [apply straight_fair|]. split; [apply backward_fair|].
  split; [vm_compute; reflexivity|]. split; [vm_compute; reflexivity|]. cbn [tl_totals]. intros P.
  apply Permutation_in with (x := ([x78; x20; x3e; x20; x3e; x20; x79], 1%N)) in P; [|left; reflexivity].
  destruct P as [P|[]]. discriminate P.
Qed.
Theorem C54_lost_pair_refuted : exists votes a b a' b', (a, b) <> (a', b') /\ label (a, b) = label (a', b')
  /\ total_by pair_worth votes (a, b) 2 /\ total_by pair_worth votes (a', b') 1
  /\ forall order, fair order -> exists r, tally order Condorcet votes = Ok r
       /\ exists n, tl_totals r = [(label (a, b), n)].
Proof.
  exists clash, (sv (lit "x")), (sv (lit "> y")), (sv (lit "x >")), (sv (lit "y")).
  split; [discriminate|]. split; [reflexivity|].
  assert (ND : Forall no_repeat clash).
  { repeat constructor; cbn; intros X; repeat destruct X as [X|X]; try discriminate X; exact X. }
  assert (Am : forall p, total_by pair_worth clash p (fold_right N.add 0%N (map (fun v => amount pair_eqb p (pairs (sort v))) clash))).
  { intros p. eapply total_iff; [|reflexivity]. intros v m Hv. apply pair_iff. rewrite Forall_forall in ND. apply ND, Hv. }
  split; [exact (Am (sv (lit "x"), sv (lit "> y")))|]. split; [exact (Am (sv (lit "x >"), sv (lit "y")))|].
  intros order F. unfold tally, count_pairs. rewrite checked_ok by (apply no_repeat_sorts, ND). cbn [bind].
  eexists. split; [reflexivity|]. cbn [tl_totals].
  set (t := add_all pair_eqb (flat_map pairs (map sort clash)) []). assert (Et : t = [((sv (lit "x"), sv (lit "> y")), 2%N); ((sv (lit "x >"), sv (lit "y")), 1%N)]) by reflexivity.
  rewrite Et. pose proof (F _ [((sv (lit "x"), sv (lit "> y")), 2%N); ((sv (lit "x >"), sv (lit "y")), 1%N)]) as P.
  apply Permutation_sym, Permutation_length_2_inv in P as [->| ->]; eexists; reflexivity.
Qed.

(** ** C55 *)
Definition grand (t : list (bytes * N)) : N := fold_right (fun p n => (snd p + n)%N) 0%N t.
Lemma grand_add k n t : grand (add bytes_eqb k n t) = (grand t + n)%N.
Proof.
  induction t as [|[k' n'] t IH]; cbn [add]; [cbn; lia|]. destruct (bytes_eqb k k'); cbn [grand fold_right snd].
  - fold (grand t). lia.
  - unfold grand in IH. rewrite IH. lia.
Qed.
Lemma grand_add_all l : forall t, grand (add_all bytes_eqb l t) = (grand t + grand l)%N.
Proof.
  induction l as [|[k n] l IH]; intros t; [symmetry; apply N.add_0_r|]. change (grand (add_all bytes_eqb l (add bytes_eqb k n t)) = (grand t + (n + grand l))%N).
  rewrite IH, grand_add. lia.
Qed.
Lemma grand_perm t t' : Permutation t t' -> grand t = grand t'.
Proof. induction 1 as [|x l l' P IH|x y l|l l' l'' P IH P' IH']; cbn [grand fold_right]; try lia. unfold grand in IH. lia. Qed.
Lemma grand_ones votes : grand (flat_map ones (map sort votes)) = N.of_nat (length (concat votes)).
Proof.
  induction votes as [|v votes IH]; [reflexivity|]. cbn [map flat_map concat].
  assert (A : forall l l', grand (l ++ l') = (grand l + grand l')%N).
  { intros l l'. induction l as [|[k n] l IHl]; [reflexivity|]. cbn [app grand fold_right snd]. unfold grand in IHl. rewrite IHl. unfold grand. lia. }
  rewrite A, IH, app_length. assert (B : forall v, grand (ones v) = N.of_nat (length v)).
  { intros w. induction w as [|s w IHw]; [reflexivity|]. cbn [ones map grand fold_right snd length]. unfold grand, ones in IHw. rewrite IHw. lia. }
  rewrite B, sort_length. lia.
Qed.
(** the totals add up to the number of selections, not to the number of ballots *)
Theorem C55_sum_of_selections : forall order votes r, fair order -> tally order Plurality votes = Ok r ->
  grand (tl_totals r) = N.of_nat (length (concat votes)).
Proof.
  intros order votes r F H. injection H as <-. cbn [tl_totals]. unfold count_plain. rewrite add_votes.
  pose proof (add_all_table bytes_eqb bytes_eqb_eq (flat_map ones (map sort votes))) as T.
  pose proof (table_perm _ _ _ _ T (F _ _)) as T'. rewrite iput_all_id; [|apply bytes_eqb_eq|apply T'].
  rewrite (grand_perm _ _ (F _ _)), grand_add_all, grand_ones. reflexivity.
Qed.
Theorem C55_one_vote_partial : forall order votes r, fair order -> tally order Plurality votes = Ok r ->
  Forall (fun v => length v <= 1) votes -> (grand (tl_totals r) <= N.of_nat (tl_votes r))%N.
Proof.
  intros order votes r F H L. rewrite (C55_sum_of_selections order votes r F H).
  injection H as <-. cbn [tl_votes].
  assert (X : length (concat votes) <= length votes); [|lia]. induction L as [|v votes A _ IH]; [cbn; lia|].
  cbn [concat length]. rewrite app_length. lia.
Qed.

(** the ballots of a contest on the ledger *)
Definition published {C : Crypto} (e : Identifier) (c : u32) (l : list STx) : list (list Selection) :=
  flat_map (fun x => match s_tx x with
                     | XDecryption t => if id_eqb (dc_election t) e && u_eqb (dc_contest t) c then [dc_vote t] else []
                     | _ => [] end) l.
Section Ledger.
  Local Existing Instance Toy.
  (** one voter, contest 0 (plurality), [n] times "yes" on the ballot, decrypted and published *)
  Definition vote_sels (sels : list Selection) : list STx :=
    let cts := map (fun s => enc s 1) sels in
    [sgn x20 (XVote (mk_vote v20 EID b1 [mk_encvote (n32 0) cts] (pk_of x20) [authn x20])); votingend;
     partial x0a x01 v20 0 cts; partial x0b x02 v20 0 cts; decryption v20 0 [x01; x02] sels].
  Definition three_yes : list STx := setup None ++ vote_sels [sel (lit "yes"); sel (lit "yes"); sel (lit "yes")].
  Theorem C55_one_vote_refuted : exists l el c r, history true l /\ In (sgn x01 (XElection el)) l /\ In c (el_contests el)
    /\ cont_type c = Plurality
    /\ tally straight Plurality (published (el_id el) (cont_index c) l) = Ok r
    /\ tl_votes r = 1 /\ grand (tl_totals r) = 3%N.
  Proof.
    exists three_yes, (election None), contest0. eexists. split; [apply run_history; vm_compute; reflexivity|].
    split; [left; reflexivity|]. split; [left; reflexivity|]. split; [reflexivity|].
    split; [vm_compute; reflexivity|]. split; reflexivity.
  Qed.
  (** the same ballot in an approval contest approves one candidate three times *)
  Theorem C55_approval_refuted : exists votes r, tally straight Approval votes = Ok r /\ tl_votes r = 1
    /\ In (sv (lit "yes"), 3%N) (tl_totals r).
  Proof.
    exists [[sel (lit "yes"); sel (lit "yes"); sel (lit "yes")]]. eexists. split; [vm_compute; reflexivity|]. split; [reflexivity|].
    left. reflexivity.
  Qed.
End Ledger.

(** ** C56 *)
Theorem C56_result_partial : forall order ct votes,
  (exists r, tally order ct votes = Ok r) <->
  ct <> SchulzeRatio /\ ct <> BordaDowdall /\ (pairwise ct = true \/ positional ct = true -> Forall no_repeat votes).
Proof.
  intros order ct votes. split.
  - intros (r & H). split; [intros ->; discriminate H|]. split; [intros ->; discriminate H|]. intros T.
    destruct (repeat_dec votes) as [X|X]; [exact X|]. exfalso. rewrite <- no_repeat_sorts in X.
    destruct ct; destruct T as [T|T]; try discriminate T; unfold tally, count_pairs, count_borda in H;
      rewrite checked_panics in H by exact X; discriminate H.
  - intros (A & B & D). destruct ct; try (eexists; reflexivity); try (exfalso; congruence);
      specialize (D ltac:(first [left; reflexivity|right; reflexivity])); unfold tally, count_pairs, count_borda;
      rewrite checked_ok by (apply no_repeat_sorts, D); eexists; reflexivity.
Qed.
(** one ballot of one voter is enough *)
Theorem C56_repeat_refuted : exists votes, forall order, tally order Condorcet votes = Panic PExpect
  /\ tally order SchulzeWinning votes = Panic PExpect /\ tally order SchulzeMargin votes = Panic PExpect
  /\ tally order Borda votes = Panic PExpect /\ tally order BordaClassic votes = Panic PExpect
  /\ tally order BordaModifiedClassic votes = Panic PExpect.
Proof. exists [[s_ (lit "yes") 0; s_ (lit "yes") 1]]. intros order. repeat split. Qed.
Theorem C56_unsupported_refuted : forall order votes, tally order SchulzeRatio votes = Panic PUnimplemented
  /\ tally order BordaDowdall votes = Panic PAssert.
Proof. split; reflexivity. Qed.

(** ** C57 *)
(** every ballot gives [a] and [b] the same rank, or ranks neither *)
Definition same_rank (v : list Selection) (a b : bytes) : Prop :=
  forall n, (exists s, In s v /\ text s = a /\ score s = n) <-> (exists s, In s v /\ text s = b /\ score s = n).
Lemma same_prefers v a b c : same_rank v a b -> prefers v a c <-> prefers v b c.
Proof.
  intros S. split; intros (s & s' & Hs & Hs' & T & T' & L).
  - destruct (proj1 (S (score s)) (ex_intro _ s (conj Hs (conj T eq_refl)))) as (s1 & H1 & T1 & E1).
    exists s1, s'. rewrite E1. auto 6.
  - destruct (proj2 (S (score s)) (ex_intro _ s (conj Hs (conj T eq_refl)))) as (s1 & H1 & T1 & E1).
    exists s1, s'. rewrite E1. auto 6.
Qed.
Lemma no_repeat_one v s s' : no_repeat v -> In s v -> In s' v -> text s = text s' -> s = s'.
Proof.
  unfold no_repeat. induction v as [|x v IH]; [intros _ []|]. cbn [map]. intros ND H H' E. inversion ND as [|? ? A B]; subst.
  destruct H as [->|H], H' as [->|H']; auto.
  - exfalso. apply A. rewrite E. apply in_map, H'.
  - exfalso. apply A. rewrite <- E. apply in_map, H.
Qed.
(** pairwise: neither beats the other, and both have the same total against everybody else *)
Theorem C57_pairwise_partial : forall order ct votes r a b, fair order -> pairwise ct = true ->
  (forall v c, In v votes -> named v c -> plain_name c) ->
  tally order ct votes = Ok r -> (forall v, In v votes -> same_rank v a b) -> plain_name a -> plain_name b ->
  (forall n, ~ In (label (a, b), n) (tl_totals r) /\ ~ In (label (b, a), n) (tl_totals r))
  /\ forall c n, In (label (a, c), n) (tl_totals r) <-> In (label (b, c), n) (tl_totals r).
Proof.
  intros order ct votes r a b F Pa PN H S Na Nb.
  assert (ND : Forall no_repeat votes).
  { apply (proj1 (C56_result_partial order ct votes)); [eauto|auto]. }
  destruct (C54_pair_totals_partial order votes ct F Pa ND PN) as (r1 & E1 & _ & _ & R). rewrite H in E1. injection E1 as <-.
  assert (None : forall x y, (forall v, In v votes -> same_rank v x y) -> forall v, In v votes -> ~ prefers v x y).
  { intros x y Sxy v Hv (s & s' & Hs & Hs' & T & T' & L). destruct (proj1 (Sxy v Hv (score s)) (ex_intro _ s (conj Hs (conj T eq_refl)))) as (s1 & H1 & T1 & Eq).
    rewrite Forall_forall in ND. rewrite (no_repeat_one v s1 s' (ND v Hv) H1 Hs' ltac:(congruence)) in Eq. lia. }
  assert (S' : forall v, In v votes -> same_rank v b a) by (intros v Hv n; symmetry; apply S, Hv).
  split.
  - intros n. split; intros X; apply R in X as (x & y & E & (v & Hv & P) & _).
    + apply label_inj in E; [|exact Na|destruct P as (s & _ & Hs & _ & T & _); eapply PN; [exact Hv|exists s; auto]].
      injection E as <- <-. exact (None a b S v Hv P).
    + apply label_inj in E; [|exact Nb|destruct P as (s & _ & Hs & _ & T & _); eapply PN; [exact Hv|exists s; auto]].
      injection E as <- <-. exact (None b a S' v Hv P).
  - assert (Half : forall x y c n, plain_name x -> plain_name y -> (forall v, In v votes -> same_rank v x y) ->
      In (label (x, c), n) (tl_totals r) -> In (label (y, c), n) (tl_totals r)).
    { intros x y c n Nx Ny Sxy X. apply R in X as (x' & c' & E & (v & Hv & P) & (ns & Fo & ->)).
      apply label_inj in E; [|exact Nx|destruct P as (s & _ & Hs & _ & T & _); eapply PN; [exact Hv|exists s; auto]].
      injection E as <- <-. apply R. exists y, c. split; [reflexivity|]. split.
      - exists v. split; [exact Hv|]. apply (same_prefers v x y c (Sxy v Hv)), P.
      - exists ns. split; [|reflexivity]. clear -Fo Sxy. induction Fo as [|v m votes ns A Fo IH]; constructor.
        + unfold pair_worth in *. cbn [fst snd] in *. rewrite <- (same_prefers v x y c (Sxy v (or_introl eq_refl))). exact A.
        + apply IH. intros v' Hv'. apply Sxy. right. exact Hv'. }
    intros c n. split; apply Half; assumption.
Qed.
(** Borda: the one written first on the ballot gets the better place *)
Theorem C57_borda_refuted : exists votes r a b n m, tally straight Borda votes = Ok r
  /\ (forall v, In v votes -> same_rank v a b) /\ In (a, n) (tl_totals r) /\ In (b, m) (tl_totals r) /\ n <> m.
Proof.
  exists [[s_ (lit "a") 0; s_ (lit "b") 0]]. eexists. exists (sv (lit "a")), (sv (lit "b")), 1%N, 0%N.
  split; [vm_compute; reflexivity|]. split.
  - intros v [<-|[]] n. split; intros (s & [<-|[<-|[]]] & T & E); try discriminate T.
    + exists (s_ (lit "b") 0). split; [right; left; reflexivity|]. split; [reflexivity|exact E].
    + exists (s_ (lit "a") 0). split; [left; reflexivity|]. split; [reflexivity|exact E].
  - split; [left; reflexivity|]. split; [right; left; reflexivity|discriminate].
Qed.
Theorem C57_borda_variants_refuted : exists votes a b n m n' m' r r', tally straight BordaClassic votes = Ok r
  /\ tally straight BordaModifiedClassic votes = Ok r' /\ (forall v, In v votes -> same_rank v a b)
  /\ In (a, n) (tl_totals r) /\ In (b, m) (tl_totals r) /\ n <> m /\ In (a, n') (tl_totals r') /\ In (b, m') (tl_totals r') /\ n' <> m'.
Proof.
  exists [[s_ (lit "a") 0; s_ (lit "b") 0]], (sv (lit "a")), (sv (lit "b")), 2%N, 1%N, 2%N, 1%N. do 2 eexists.
  split; [vm_compute; reflexivity|]. split; [vm_compute; reflexivity|]. split.
  - intros v [<-|[]] n. split; intros (s & [<-|[<-|[]]] & T & E); try discriminate T.
    + exists (s_ (lit "b") 0). split; [right; left; reflexivity|]. split; [reflexivity|exact E].
    + exists (s_ (lit "a") 0). split; [left; reflexivity|]. split; [reflexivity|exact E].
  - repeat split; try discriminate; first [left; reflexivity|right; left; reflexivity].
Qed.
(** with strict ranks the place is the number of candidates ranked before, in any writing order *)
Theorem C57_strict_ranks_partial : forall v c i, NoDup (map score v) ->
  placed v c i <-> exists s, In s v /\ text s = c /\ i = count (fun x => score x <? score s)%N v.
Proof.
  assert (G : forall p s q, NoDup (map score (p ++ s :: q)) ->
    count (fun x => score x <=? score s)%N p + count (fun x => score x <? score s)%N q = count (fun x => score x <? score s)%N (p ++ s :: q)).
  { intros p s q ND. rewrite count_app. unfold count at 4. cbn [filter]. rewrite N.ltb_irrefl. fold (count (fun x => score x <? score s)%N q). f_equal.
    rewrite map_app in ND. cbn [map] in ND. apply NoDup_remove_2 in ND. unfold count. f_equal. apply filter_ext_in. intros x Hx.
    assert (score x <> score s). { intros E. apply ND, in_or_app. left. rewrite <- E. apply in_map, Hx. } lia. }
  intros v c i ND. split.
  - intros (p & s & q & -> & T & ->). exists s. split; [apply in_or_app; right; left; reflexivity|]. split; [exact T|]. apply G, ND.
  - intros (s & Hs & T & ->). apply in_split in Hs as (p & q & ->). exists p, s, q. split; [reflexivity|]. split; [exact T|]. symmetry. apply G, ND.
Qed.

(** ** C63: the tally printed by the e2e command *)
Section E2e.
  Context {C : Crypto}.
  Definition first_text (t : DecryptionTx) : option bytes := option_map text (nth_error (dc_vote t) 0).
  Lemma e2e_count_iff votes : forall t t', e2e_count votes t = Ok t' <->
    Forall (fun v => v <> []) votes
    /\ t' = add_all bytes_eqb (flat_map (fun v => match v with s :: _ => [(text s, 1%N)] | [] => [] end) votes) t.
  Proof.
    induction votes as [|v votes IH]; intros t t'; cbn [e2e_count flat_map].
    - split; [intros X; injection X as <-; split; [constructor|reflexivity]|intros [_ ->]; reflexivity].
    - destruct v as [|s v]; cbn [nth_error or_panic bind].
      + split; [discriminate|]. intros [X _]. inversion X. congruence.
      + rewrite IH. cbn [app]. split.
        * intros [X ->]. split; [constructor; [discriminate|exact X]|reflexivity].
        * intros [X ->]. inversion X; subst. split; [assumption|reflexivity].
  Qed.
  (** it prints, for every text, how many decryptions of the election have it as their first
      selection; it needs every decrypted ballot to have one *)
  Theorem C63_first_selections_partial : forall order s L e t, fair order -> holds s L ->
    e2e_tally order s e = Ok t ->
    exists ds, range_is L e TDecryption XDecryption ds /\ Forall (fun d => dc_vote d <> []) ds
      /\ NoDup (map fst t) /\ grand t = N.of_nat (length ds)
      /\ forall c n, In (c, n) t <->
           (exists d, In d ds /\ first_text d = Some c)
           /\ n = N.of_nat (length (filter (fun d => match first_text d with Some x => bytes_eqb c x | None => false end) ds)).
  Proof.
    intros order s L e t F H E. unfold e2e_tally in E. apply bind_ok in E as (txs & A & E). apply bind_ok in E as (ds & B & E).
    apply bind_ok in E as (t0 & D & E). injection E as <-. apply e2e_count_iff in D as [NE D]. exists ds.
    assert (R : range_is L e TDecryption XDecryption ds).
    { apply (@range_into _ s L H Empty_set _ as_decryption XDecryption); [intros y a; split; [destruct y; cbn; congruence|intros ->; reflexivity]|].
      exists txs. split; [rewrite A; reflexivity|exact B]. }
    split; [exact R|]. rewrite Forall_map in NE. split; [exact NE|].
    set (g := fun d => match dc_vote d with s :: _ => [(text s, 1%N)] | [] => [] end).
    assert (Eg : flat_map (fun v : list Selection => match v with s :: _ => [(text s, 1%N)] | [] => [] end) (map dc_vote ds) = flat_map g ds) by exact (flat_map_map _ dc_vote ds).
    rewrite Eg in D. clear Eg. subst t0.
    pose proof (add_all_table bytes_eqb bytes_eqb_eq (flat_map g ds)) as T. pose proof (table_perm _ _ _ _ T (F _ _)) as [T1 T2].
    split; [exact T1|]. split.
    - rewrite (grand_perm _ _ (F _ _)), grand_add_all. cbn [grand fold_right]. rewrite N.add_0_l. clear -NE.
      induction NE as [|d ds X _ IH]; [reflexivity|]. cbn [flat_map]. unfold g at 1. destruct (dc_vote d) as [|s v]; [congruence|].
      cbn [app grand fold_right snd length]. unfold grand in IH. rewrite IH. lia.
    - intros c n. rewrite T2.
      assert (K : In c (map fst (flat_map g ds)) <-> exists d, In d ds /\ first_text d = Some c).
      { rewrite in_map_iff. split.
        - intros ([k m] & Ek & X). cbn in Ek. subst k. apply in_flat_map in X as (d & Hd & X). exists d. split; [exact Hd|].
          unfold g in X. unfold first_text. destruct (dc_vote d) as [|s0 v]; [destruct X|]. destruct X as [X|[]]. injection X as <- _. reflexivity.
        - intros (d & Hd & X). exists (c, 1%N). split; [reflexivity|]. apply in_flat_map. exists d. split; [exact Hd|].
          unfold first_text in X. unfold g. destruct (dc_vote d) as [|s0 v]; [discriminate X|]. injection X as <-. left. reflexivity. }
      assert (Am : amount bytes_eqb c (flat_map g ds)
        = N.of_nat (length (filter (fun d => match first_text d with Some x => bytes_eqb c x | None => false end) ds))).
      { clear. induction ds as [|d ds IH]; [reflexivity|]. cbn [flat_map filter]. rewrite amount_app, IH. unfold g at 1, first_text at 2.
        destruct (dc_vote d) as [|s0 v]; cbn [nth_error option_map amount]; [reflexivity|].
        destruct (bytes_eqb c (text s0)); cbn [length]; lia. }
      rewrite K, Am. reflexivity.
  Qed.
End E2e.
Section E2eCases.
  Local Existing Instance Toy.
  (** a voter who selects nothing crashes the command for everybody *)
  Theorem C63_empty_ballot_refuted : exists l, history true l /\ forall order, e2e_tally order (ms_store (ms_from l)) EID = Panic PIndex.
  Proof.
    exists (setup None ++ vote_sels []). split; [apply run_history; vm_compute; reflexivity|]. intros order.
    unfold e2e_tally. assert (G : get_multiple (ms_store (ms_from (setup None ++ vote_sels []))) EID TDecryption
      = Ok [decryption v20 0 [x01; x02] []]) by (vm_compute; reflexivity).
    rewrite G. reflexivity.
  Qed.
  (** the contests of an election are counted together: one voter, "yes" in two contests *)
  Definition two_contests : list STx :=
    let part k i c := sgn k (XPartial (mk_partial (partial_build_id EID v20 (n32 c) (n16 0) i) EID v20 (n16 0) (n32 c) i (pk_of k)
      [any (toy_share (sv (proof_of i)) (sv (enc (sel (lit "yes")) c)))])) in
    let dec c := sgn x00 (XDecryption (mk_decryption (decryption_build_id EID v20 (n32 c) (n16 0)) EID v20 (n16 0) (n32 c) [x01; x02] [sel (lit "yes")])) in
    setup None ++ [sgn x20 (XVote (mk_vote v20 EID b1 [mk_encvote (n32 0) [enc (sel (lit "yes")) 0]; mk_encvote (n32 1) [enc (sel (lit "yes")) 1]]
      (pk_of x20) [authn x20])); votingend; part x0a x01 0%N; part x0b x02 0%N; part x0a x01 1%N; part x0b x02 1%N; dec 0%N; dec 1%N].
  Theorem C63_contests_mixed_refuted : exists l t, history true l
    /\ e2e_tally straight (ms_store (ms_from l)) EID = Ok t /\ In (sv (lit "yes"), 2%N) t
    /\ length (published EID (n32 0) l) = 1 /\ length (published EID (n32 1) l) = 1.
  Proof.
    exists two_contests. eexists. split; [apply run_history; vm_compute; reflexivity|]. split; [vm_compute; reflexivity|].
    split; [left; reflexivity|]. split; vm_compute; reflexivity.
  Qed.
  (** the scene's result *)
  Example C63_case : e2e_tally straight (ms_store (ms_from scene_plain)) EID = Ok [(sv (lit "no"), 1%N); (sv (lit "yes"), 1%N)]
    \/ e2e_tally straight (ms_store (ms_from scene_plain)) EID = Ok [(sv (lit "yes"), 1%N); (sv (lit "no"), 1%N)].
  Proof. vm_compute. auto. Qed.
End E2eCases.

(** ** concrete cases *)
Definition three : list (list Selection) :=
  [[s_ (lit "b") 1; s_ (lit "a") 0; s_ (lit "c") 2]; [s_ (lit "b") 0; s_ (lit "c") 1]; [s_ (lit "a") 5]].
Example C54_case : Forall no_repeat three /\ (forall v c, In v three -> named v c -> plain_name c) /\ candidates three 3
  /\ tally straight Borda three = Ok (mk_tally 3 [(sv (lit "a"), 4%N); (sv (lit "b"), 3%N); (sv (lit "c"), 1%N)] [])
  /\ tally straight Plurality three = Ok (mk_tally 3 [(sv (lit "a"), 2%N); (sv (lit "b"), 2%N); (sv (lit "c"), 2%N)] [])
  /\ tally straight Score three = Ok (mk_tally 3 [(sv (lit "a"), 5%N); (sv (lit "b"), 1%N); (sv (lit "c"), 3%N)] [])
  /\ tally straight Condorcet three = Ok (mk_tally 3 [(sv (lit "a > b"), 1%N); (sv (lit "a > c"), 1%N); (sv (lit "b > c"), 2%N)] []).
Proof.
  split. { repeat constructor; cbn; intros X; repeat destruct X as [X|X]; try discriminate X; exact X. }
  split. { intros v c Hv (s & Hs & <-). destruct Hv as [<-|[<-|[<-|[]]]]; cbn in Hs;
           repeat destruct Hs as [<-|Hs]; try destruct Hs; intros X; cbn in X; repeat destruct X as [X|X]; try discriminate X; exact X. }
  split. { exact (candidates_count three). }
  repeat split.
Qed.
Example C55_case : exists r, tally straight Plurality [[s_ (lit "a") 0]; []; [s_ (lit "b") 0]] = Ok r
  /\ Forall (fun v => length v <= 1) [[s_ (lit "a") 0]; []; [s_ (lit "b") 0]] /\ tl_votes r = 3 /\ grand (tl_totals r) = 2%N.
Proof. eexists. split; [reflexivity|]. split; [repeat constructor|split; reflexivity]. Qed.
Example C57_case : forall v, In v [[s_ (lit "a") 3; s_ (lit "c") 0; s_ (lit "b") 3]; [s_ (lit "c") 1]] -> same_rank v (sv (lit "a")) (sv (lit "b")).
Proof.
  intros v [<-|[<-|[]]] n; split; intros (s & Hs & T & E); cbn in Hs; repeat destruct Hs as [<-|Hs]; try destruct Hs; try discriminate T.
  - exists (s_ (lit "b") 3). split; [right; right; left; reflexivity|]. split; [reflexivity|exact E].
  - exists (s_ (lit "a") 3). split; [left; reflexivity|]. split; [reflexivity|exact E].
Qed.

Print Assumptions C54_plain_totals.
Print Assumptions C54_borda_totals.
Print Assumptions C54_pair_totals_partial.
Print Assumptions C54_ballot_order_partial.
Print Assumptions C54_listing_order_refuted.
Print Assumptions C54_lost_pair_refuted.
Print Assumptions C55_sum_of_selections.
Print Assumptions C55_one_vote_partial.
Print Assumptions C55_one_vote_refuted.
Print Assumptions C55_approval_refuted.
Print Assumptions C56_result_partial.
Print Assumptions C56_repeat_refuted.
Print Assumptions C56_unsupported_refuted.
Print Assumptions C57_pairwise_partial.
Print Assumptions C57_borda_refuted.
Print Assumptions C57_borda_variants_refuted.
Print Assumptions C57_strict_ranks_partial.
Print Assumptions C63_first_selections_partial.
Print Assumptions C63_empty_ballot_refuted.
Print Assumptions C63_contests_mixed_refuted.
