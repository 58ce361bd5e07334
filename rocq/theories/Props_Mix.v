(** * Props_Mix: C21-C24 (mixing). *)
From Verif Require Import Base BaseFacts Utf8 Ident BuildId Crypto Types Serde Store SpecStore StoreFacts Validate
  SpecValid ValidFacts ValidFacts2 ValidFacts3 SpecHist HistFacts SpecMix MixFacts Toy Scene.
From Coq Require Import Sorting.Permutation Sorting.Sorted Strings.String.
Open Scope list_scope.

Section Props.
  Context {C : Crypto}.

  (** ** C21 *)
  Theorem C21_first_mix_covers_all_votes :
    forall dbg s L x m, holds s L -> s_tx x = XMix m -> mx_prev m = None -> validate dbg s x = Ok tt ->
    mx_index m = x00 /\ all_votes L (mx_election m) (mx_votes m)
    /\ List.length (mx_out m) = List.length (listed L (mx_election m) TVote)
    /\ forall y, In y (listed L (mx_election m) TVote) -> exists v, s_tx y = XVote v.
  Proof.
    intros dbg s L x m H Hx P V. apply (mix_accepted dbg s L x m H Hx) in V as (_ & _ & _ & Hn & ins & k & Src & _).
    destruct Src as [(_ & I0 & vs & R & Ev & _)|(p & pm & P' & _)]; [|congruence].
    split; [exact I0|]. rewrite Ev. split; [apply listed_all, (h_asc _ _ H)|].
    split; [rewrite Hn, Ev; apply map_length|]. intros y Hy. unfold range_is in R.
    apply (in_map s_tx) in Hy. rewrite R in Hy. apply in_map_iff in Hy as (v & E & _). eauto.
  Qed.
  (** nothing repeats in a list of all votes *)
  Theorem C21_each_once : forall p e ids, all_votes p e ids -> NoDup ids.
  Proof.
    intros p e ids [A _]. induction A as [|i ids _ IH F]; constructor; [|exact IH].
    intros Hi. rewrite Forall_forall in F. exact (id_lt_irrefl i (F i Hi)).
  Qed.

  (** ** C22 *)
  Theorem C22_mixes_form_chains :
    forall dbg l m, history dbg l -> at_id l (mx_id m) (XMix m) ->
    exists m0, chain l m m0
      /\ exists p x q, l = p ++ x :: q /\ s_tx x = XMix m0 /\ all_votes p (mx_election m0) (mx_votes m0).
  Proof.
    intros dbg l m H Hm. destruct (mix_chain dbg l H m Hm) as (m0 & Hc). exists m0. split; [exact Hc|].
    apply chain_start in Hc as (_ & _ & _ & _ & P & _ & _ & A). apply (first_mix_votes dbg); assumption.
  Qed.
  Theorem C22_chain_length_is_index : forall l m m0, chain l m m0 ->
    exists ms, List.length ms = N.to_nat (u8v (mx_index m)) /\ NoDup (map mx_index (m :: ms))
      /\ forall m', In m' ms -> at_id l (mx_id m') (XMix m') /\ mx_votes m' = mx_votes m.
  Proof.
    assert (G : forall l m m0, chain l m m0 ->
      exists ms, List.length ms = N.to_nat (u8v (mx_index m)) /\ NoDup (map mx_index (m :: ms))
      /\ forall m', In m' ms -> at_id l (mx_id m') (XMix m') /\ mx_votes m' = mx_votes m
                    /\ (u8v (mx_index m') < u8v (mx_index m))%N).
    { induction 1 as [m A P I T|m p pm m0 A P B Hi Ht E1 E2 E3 E4 Hc (ms & L & N & Q)].
      - exists []. rewrite I. split; [reflexivity|]. split; [repeat constructor; intros []|intros ? []].
      - exists (pm :: ms). split; [cbn [List.length]; lia|].
        assert (Q' : forall m', In m' (pm :: ms) -> at_id l (mx_id m') (XMix m') /\ mx_votes m' = mx_votes m
                    /\ (u8v (mx_index m') < u8v (mx_index m))%N).
        { intros m' [<-|Hm'].
          - split; [|split; [congruence|lia]]. inversion Hc; subst; assumption.
          - destruct (Q m' Hm') as (Q1 & Q2 & Q3). split; [exact Q1|]. split; [congruence|lia]. }
        split; [|exact Q'].
        change (map mx_index (m :: pm :: ms)) with (mx_index m :: map mx_index (pm :: ms)).
        constructor; [|exact N]. intros Hin. apply in_map_iff in Hin as (m' & E & Hm').
        destruct (Q' m' Hm') as (_ & _ & Q3). rewrite E in Q3. lia. }
    intros l m m0 Hc. destruct (G l m m0 Hc) as (ms & A & B & D). exists ms. split; [exact A|]. split; [exact B|].
    intros m' Hm'. destruct (D m' Hm') as (D1 & D2 & _). auto.
  Qed.

  (** ** C23 *)
  Theorem C23_mixing_preserves_plaintexts :
    forall dbg l M (D : EGPublicKey -> Ciphertext -> M) m,
    shuffle_sound D -> history dbg l -> at_id l (mx_id m) (XMix m) ->
    exists k vs, at_id l (slot0 (mx_election m) TEncryptionKey) (XEncryptionKey k)
      /\ Forall2 (fun i v => at_id l i (XVote v)) (mx_votes m) vs
      /\ Permutation (map (map (D (ek_key k))) (mx_out m))
                     (map (map (D (ek_key k))) (rows_of (mx_contest m) vs)).
  Proof. intros dbg l M D m S H Hm. exact (mix_plaintexts dbg l M D S H m Hm). Qed.
  (** the number of rows never changes: as many as votes listed, as many as rows cast *)
  Theorem C23_row_count :
    forall dbg l M (D : EGPublicKey -> Ciphertext -> M) m,
    shuffle_sound D -> history dbg l -> at_id l (mx_id m) (XMix m) ->
    exists vs, Forall2 (fun i v => at_id l i (XVote v)) (mx_votes m) vs
      /\ List.length (mx_out m) = List.length (mx_votes m)
      /\ List.length (rows_of (mx_contest m) vs) = List.length (mx_votes m).
  Proof.
    intros dbg l M D m S H Hm. destruct (mix_plaintexts dbg l M D S H m Hm) as (k & vs & _ & A & P).
    exists vs. split; [exact A|]. destruct Hm as (x & Hx & _ & Tx).
    destruct (hist_accepted dbg l x H Hx) as (p & q & _ & _ & _ & V).
    apply (mix_accepted dbg _ _ x m (stored_holds p) Tx) in V as (_ & _ & _ & Hn & _).
    split; [exact Hn|]. apply Permutation_length in P. rewrite !map_length in P. congruence.
  Qed.

  (** ** C24: what is guaranteed *)
  Theorem C24_no_vote_after_end_partial :
    forall dbg p q e, history dbg (p ++ q) -> occupied p (slot0 e TVotingEnd) ->
    forall y, In y q -> ~ in_range e TVote y.
  Proof. exact no_vote_after_end. Qed.
  (** a first mix accepted when the voting-end slot is taken lists all votes ever recorded *)
  Theorem C24_mix_after_end_is_complete_partial :
    forall dbg p x q m, history dbg (p ++ x :: q) -> s_tx x = XMix m -> mx_prev m = None ->
    occupied p (slot0 (mx_election m) TVotingEnd) ->
    all_votes (p ++ x :: q) (mx_election m) (mx_votes m).
  Proof.
    intros dbg p x q m H Tx P O. pose proof (hist_at dbg _ _ _ H) as (Hp & _ & V).
    apply (C21_first_mix_covers_all_votes dbg _ _ x m (stored_holds p) Tx P) in V as (_ & (A & B) & _).
    split; [exact A|]. intros i. rewrite B. split; intros (y & Hy & R & E); exists y.
    - split; [|auto]. apply in_or_app. left. apply (hist_stored dbg p y Hp), Hy.
    - split; [|auto]. apply in_app_iff in Hy as [Hy|Hy]; [apply (hist_stored dbg p y Hp), Hy|].
      exfalso. exact (no_vote_after_end dbg p (x :: q) _ H O y Hy R).
  Qed.
End Props.

(** ** Examples and counterexamples *)
#[local] Existing Instance Toy.

Definition toy_D (k : EGPublicKey) (c : Ciphertext) : bytes := toy_plain (sv c).
Lemma rows_eqb_eq a : forall b, rows_eqb a b = true -> a = b.
Proof.
  induction a as [|x a IH]; intros [|y b]; cbn [rows_eqb]; try discriminate; [reflexivity|].
  rewrite andb_true_iff, bytes_eqb_eq. intros [-> H]. rewrite (IH b H). reflexivity.
Qed.
Lemma remove1_perm x l : forall r, remove1 x l = Some r -> Permutation l (x :: r).
Proof.
  induction l as [|y l IH]; intros r; cbn [remove1]; [discriminate|].
  destruct (rows_eqb x y) eqn:E; [intros H; injection H as <-; apply rows_eqb_eq in E as ->; reflexivity|].
  destruct (remove1 x l) as [r'|]; [|discriminate]. intros H; injection H as <-.
  rewrite (IH r' eq_refl). apply perm_swap.
Qed.
Lemma perm_rows_perm a : forall b, perm_rows a b = true -> Permutation a b.
Proof.
  induction a as [|x a IH]; intros b; cbn [perm_rows].
  - destruct b; [intros _; constructor|discriminate].
  - destruct (remove1 x b) as [b'|] eqn:E; [|discriminate]. intros H.
    rewrite (remove1_perm _ _ _ E). constructor. apply IH, H.
Qed.
(** the toy instance satisfies the law *)
Example C23_toy_shuffle_sound : shuffle_sound toy_D.
Proof.
  intros seed n ins outs k pf H. cbn in H. rewrite !andb_true_iff in H. apply perm_rows_perm, H.
Qed.
Example C22_example : history true scene_mix /\ In mix2 scene_mix
  /\ s_tx mix2 = XMix (mix_of x0b x02 x01 (Some (s_id mix1)) VIDS rows2).
Proof.
  split; [apply run_history; vm_compute; reflexivity|]. split; [|reflexivity].
  unfold scene_mix. do 2 (apply in_or_app; right). right. right. left. reflexivity.
Qed.
(** the checks are not trivially satisfied: wrong index, missing vote, changed row *)
Example C21_example :
  let pre := setup (Some mixcfg) ++ voting ++ [votingend] in
  let go m := validate true (ms_store (ms_from pre)) (sgn x0a (XMix m)) in
  go (mix_of x0a x01 x00 None VIDS rows1) = Ok tt
  /\ is_ok (go (mix_of x0a x01 x00 None [v20] [[enc (sel (lit "yes")) 7]])) = false
  /\ is_ok (go (mix_of x0a x01 x00 None [v20; v20] rows1)) = false
  /\ is_ok (go (mix_of x0a x01 x00 None VIDS [[enc (sel (lit "no")) 101]; [enc (sel (lit "no")) 102]])) = false
  /\ is_ok (go (mix_of x0a x01 x01 None VIDS rows1)) = false.
Proof. repeat split; vm_compute; reflexivity. Qed.

(** C24 refuted: a mix recorded before the voting end, and a vote recorded after the mix *)
Definition early_mix : STx := sgn x0a (XMix (mix_of x0a x01 x00 None [v20] [[enc (sel (lit "yes")) 7]])).
Theorem C24_mix_before_end_refuted :
  exists p x q m y, history true (p ++ x :: q) /\ s_tx x = XMix m /\ In y q
    /\ in_range (mx_election m) TVote y /\ ~ In (s_id y) (mx_votes m)
    /\ forall z, In z (p ++ x :: q) -> s_type z <> TVotingEnd.
Proof.
  exists (setup (Some mixcfg) ++ [vote x20 (lit "yes")]), early_mix, [vote x21 (lit "no")]. eexists.
  exists (vote x21 (lit "no")).
  split; [apply run_history; vm_compute; reflexivity|]. split; [reflexivity|]. split; [left; reflexivity|].
  split; [split; reflexivity|]. split.
  - intros [E|[]]. apply (f_equal id_to_bytes) in E. vm_compute in E. discriminate.
  - intros z Hz. repeat (destruct Hz as [<-|Hz]; [vm_compute; discriminate|]). destruct Hz.
Qed.
(** the late vote is lost: the chain is finished, decrypted, and never contains it *)
Theorem C24_late_vote_dropped_refuted :
  exists l m y, history true l /\ at_id l (mx_id m) (XMix m) /\ mx_index m = x01
    /\ In y l /\ in_range (mx_election m) TVote y /\ ~ In (s_id y) (mx_votes m)
    /\ occupied l (slot0 (mx_election m) TVotingEnd)
    /\ occupied l (decryption_build_id (mx_election m) (mx_id m) (n32 0) (n16 0)).
Proof.
  set (mm := mix_of x0b x02 x01 (Some (s_id early_mix)) [v20] [[enc (sel (lit "yes")) 8]]).
  set (l := (setup (Some mixcfg) ++ [vote x20 (lit "yes")]) ++
     [early_mix; vote x21 (lit "no"); votingend; sgn x0b (XMix mm);
      partial x0a x01 (mx_id mm) 0 [enc (sel (lit "yes")) 8]; partial x0b x02 (mx_id mm) 0 [enc (sel (lit "yes")) 8];
      decryption (mx_id mm) 0 [x01; x02] [sel (lit "yes")]]).
  exists l, mm, (vote x21 (lit "no")). split; [apply run_history; vm_compute; reflexivity|].
  split; [eexists; split; [do 12 right; left; reflexivity|split; reflexivity]|]. split; [reflexivity|].
  split; [do 10 right; left; reflexivity|]. split; [split; reflexivity|]. split.
  { intros [E|[]]. apply (f_equal id_to_bytes) in E. vm_compute in E. discriminate. }
  split; eexists; (split; [|]).
  - do 11 right; left; reflexivity.
  - reflexivity.
  - do 15 right; left; reflexivity.
  - reflexivity.
Qed.
Example C24_partial_example : occupied (setup (Some mixcfg) ++ voting ++ [votingend]) (slot0 EID TVotingEnd).
Proof. exists votingend. split; [do 2 (apply in_or_app; right); left; reflexivity|reflexivity]. Qed.

Print Assumptions C21_first_mix_covers_all_votes.
Print Assumptions C21_each_once.
Print Assumptions C22_mixes_form_chains.
Print Assumptions C22_chain_length_is_index.
Print Assumptions C23_mixing_preserves_plaintexts.
Print Assumptions C23_row_count.
Print Assumptions C24_no_vote_after_end_partial.
Print Assumptions C24_mix_after_end_is_complete_partial.
Print Assumptions C24_mix_before_end_refuted.
Print Assumptions C24_late_vote_dropped_refuted.
