(** * Props_Order: C96 (what is acceptable stays acceptable; the order of arrival). *)
From Verif Require Import Base BaseFacts Utf8 Cbor Ident BuildId IdentFacts Crypto Types Serde Store SpecStore StoreFacts Prost Validate ValidateFacts
  SpecValid ValidFacts ValidFacts2 ValidFacts3 SpecHist HistFacts SpecOrder Toy Scene.
From Coq Require Import ZifyBool ZifyNat ZifyN Sorting.Permutation Strings.String.
Open Scope list_scope.

Section Props.
  Context {C : Crypto}.
  Variable dbg : bool.

  (** what a longer history keeps *)
  Section Longer.
    Variables (h ys : list STx).
    Hypothesis Hh : history dbg (h ++ ys).
    Let Hp : history dbg h := hist_prefix dbg h ys Hh.
    Lemma more x : In x (stored h) -> In x (stored (h ++ ys)).
    Proof. intros I. apply (hist_stored dbg _ _ Hh), in_or_app. left. apply (hist_stored dbg _ _ Hp), I. Qed.
    Lemma more_at i t : at_id (stored h) i t -> at_id (stored (h ++ ys)) i t.
    Proof. intros (x & I & X). exists x. split; [apply more, I|exact X]. Qed.
    Lemma more_occ i : occupied (stored h) i -> occupied (stored (h ++ ys)) i.
    Proof. intros (x & I & X). exists x. split; [apply more, I|exact X]. Qed.
    Lemma more_inv x : In x (stored (h ++ ys)) -> In x (stored h) \/ In x ys.
    Proof. intros I. apply (hist_stored dbg _ _ Hh), in_app_or in I as [I|I]; [left; apply (hist_stored dbg _ _ Hp), I|right; exact I]. Qed.
    Lemma same_listed e ty : (forall y, In y ys -> ~ in_range e ty y) -> listed (stored (h ++ ys)) e ty = listed (stored h) e ty.
    Proof.
      intros N. apply asc_ext; [apply listed_asc, stored_asc..|]. intros x. rewrite !listed_in. split.
      - intros (I & R). split; [|exact R]. apply more_inv in I as [I|I]; [exact I|]. destruct (N x I R).
      - intros (I & R). split; [apply more, I|exact R].
    Qed.
    Lemma more_row el up i c row : row_at (stored h) el up i c row -> row_at (stored (h ++ ys)) el up i c row.
    Proof.
      intros [(A & B & D & v & ev & At & R)|(A & B & m & At & R)]; [left|right].
      - split; [exact A|]. split; [exact B|]. split; [exact D|]. exists v, ev. split; [apply more_at, At|exact R].
      - split; [exact A|]. split; [exact B|]. exists m. split; [apply more_at, At|exact R].
    Qed.
    Lemma not_twice x y : In x h -> In y ys -> s_id x <> s_id y.
    Proof.
      intros I J E. pose proof (hist_nodup dbg _ Hh) as N. rewrite map_app in N. apply in_map with (f := s_id) in I, J.
      rewrite E in I. apply in_split in J as (a & b & Eb). rewrite Eb, app_assoc in N. apply NoDup_remove_2 in N. apply N.
      apply in_or_app. left. apply in_or_app. left. exact I.
    Qed.
  End Longer.
  Lemma acceptable_iff h x : acceptable dbg h x <->
    id_type (s_id x) = s_type x /\ (forall k, tx_public (s_tx x) = Some k -> signed_by k x) /\ ok_tx (stored h) dbg (s_tx x).
  Proof. apply (validate_iff _ _ (stored_holds h)). Qed.

  (** what is acceptable stays so while nothing that disturbs it is recorded *)
  Theorem C96_stays : forall h ys x, history dbg (h ++ ys) -> acceptable dbg h x -> (forall y, In y ys -> ~ disturbs y x) ->
    acceptable dbg (h ++ ys) x.
  Proof.
    intros h ys x Hh A N. apply acceptable_iff in A as (Ty & Sg & O). apply acceptable_iff. split; [exact Ty|]. split; [exact Sg|]. clear Ty Sg.
    destruct (s_tx x) as [t|t|t|t|t|t|t|t|t|t] eqn:T; cbn [ok_tx] in *.
    - exact O.
    - destruct O as (el & At & R). exists el. split; [apply (more_at _ _ Hh), At|exact R].
    - destruct O as (el & At & R). exists el. split; [apply (more_at _ _ Hh), At|exact R].
    - destruct O as (el & At & R). exists el. split; [apply (more_at _ _ Hh), At|exact R].
    - destruct O as (el & pks & At & Au & R & O). exists el, pks. split; [apply (more_at _ _ Hh), At|]. split; [exact Au|]. split; [|exact O].
      unfold range_is in *. rewrite same_listed; [exact R|exact Hh|]. intros y I J. apply (N y I). eapply d_key; eassumption.
    - destruct O as (el & At & Id & Co & Ek & Ve & O). exists el. split; [apply (more_at _ _ Hh), At|]. split; [exact Id|]. split.
      { intros y I D. apply (more_inv _ _ Hh) in I as [I|I]; [exact (Co y I D)|]. apply (N y I). eapply d_collision; eassumption. }
      split; [apply (more_occ _ _ Hh), Ek|]. split; [|exact O].
      intros (y & I & E). apply (more_inv _ _ Hh) in I as [I|I]; [apply Ve; exists y; auto|]. apply (N y I). eapply d_ended; eassumption.
    - destruct O as (el & At & R). exists el. split; [apply (more_at _ _ Hh), At|exact R].
    - destruct O as (Id & (el & mc & At & M) & P & Ln & ins & k & Src & Ek & V). split; [exact Id|]. split; [exists el, mc; split; [apply (more_at _ _ Hh), At|exact M]|].
      split; [exact P|]. split; [exact Ln|]. exists ins, k. split; [|split; [apply (more_at _ _ Hh), Ek|exact V]].
      destruct Src as [(Pn & I0 & vs & R & Vs & E)|(p & pm & Pp & Ap & S)].
      + assert (L : listed (stored (h ++ ys)) (mx_election t) TVote = listed (stored h) (mx_election t) TVote).
        { apply same_listed; [exact Hh|]. intros y I J. apply (N y I). eapply d_vote; eassumption. }
        left. split; [exact Pn|]. split; [exact I0|]. exists vs. unfold range_is in *. rewrite L. auto.
      + right. exists p, pm. split; [exact Pp|]. split; [apply (more_at _ _ Hh), Ap|exact S].
    - destruct O as (el & row & pk & At & Li & Id & Ve & Row & Pk & O). exists el, row, pk. split; [apply (more_at _ _ Hh), At|]. split; [exact Li|]. split; [exact Id|].
      split; [apply (more_occ _ _ Hh), Ve|]. split; [apply (more_row _ _ Hh), Row|]. split; [apply (more_at _ _ Hh), Pk|exact O].
    - destruct O as (el & row & pks & parts & At & Id & Row & R & Pa & O). exists el, row, pks, parts. split; [apply (more_at _ _ Hh), At|]. split; [exact Id|].
      split; [apply (more_row _ _ Hh), Row|]. split.
      { unfold range_is in *. rewrite same_listed; [exact R|exact Hh|]. intros y I J. apply (N y I). eapply d_proof; eassumption. }
      split; [|exact O]. clear - Pa Hh. induction Pa as [|i p l l' (X & Y) _ IH]; constructor; [split; [exact X|apply (more_at _ _ Hh), Y]|exact IH].
  Qed.

  Lemma at_unique h i t t' : history dbg h -> at_id (stored h) i t -> at_id (stored h) i t' -> t = t'.
  Proof.
    intros Hh (x & I & E & <-) (y & J & F & <-). f_equal. apply (hist_unique dbg h); [exact Hh|apply (hist_stored dbg _ _ Hh), I|apply (hist_stored dbg _ _ Hh), J|congruence].
  Qed.
  (** ... and is refused as soon as something is, except for a decryption *)
  Theorem C96_disturbed : forall h ys x y, history dbg (h ++ ys) -> acceptable dbg h x -> In y ys -> disturbs y x ->
    (forall d, s_tx x <> XDecryption d) -> ~ acceptable dbg (h ++ ys) x.
  Proof.
    intros h ys x y Hh A I D Nd A'. apply acceptable_iff in A as (_ & _ & O). apply acceptable_iff in A' as (_ & _ & O').
    assert (Iy : In y (stored (h ++ ys))) by (apply (hist_stored dbg _ _ Hh), in_or_app; auto). pose proof (hist_prefix dbg _ _ Hh) as Hp.
    destruct D as [v T K|v T K|k T K|m T P K|d T K]; rewrite T in *; cbn [ok_tx] in *.
    - destruct O' as (el & _ & _ & Co & _). exact (Co y Iy K).
    - destruct O' as (el & _ & _ & _ & _ & Ve & _). apply Ve. exists y. auto.
    - destruct O as (el & pks & At & _ & R & Ln & _), O' as (el' & pks' & At' & _ & R' & Ln' & _).
      apply (more_at _ _ Hh) in At. pose proof (at_unique _ _ _ _ Hh At At') as E. injection E as <-.
      unfold range_is in *. apply (f_equal (@List.length _)) in R, R'. rewrite !map_length in R, R'.
      assert (Ly : In y (listed (stored (h ++ ys)) (ek_election k) TKeyGenPublicKey)) by (apply listed_in; split; assumption).
      apply in_split in Ly as (a & b & Eab).
      assert (J : incl (map s_id (listed (stored h) (ek_election k) TKeyGenPublicKey)) (map s_id (a ++ b))).
      { intros i Ii. apply in_map_iff in Ii as (z & <- & Iz). apply in_map.
        assert (Jz : In z (listed (stored (h ++ ys)) (ek_election k) TKeyGenPublicKey)).
        { apply listed_in in Iz as [Iz Rz]. apply listed_in. split; [apply (more _ _ Hh), Iz|exact Rz]. }
        rewrite Eab in Jz. apply in_app_or in Jz as [Jz|[->|Jz]]; [apply in_or_app; auto| |apply in_or_app; auto].
        apply listed_in in Iz as [Iz _]. destruct (not_twice _ _ Hh z z); [apply (hist_stored dbg _ _ Hp), Iz|exact I|reflexivity]. }
      apply NoDup_incl_length in J; [|apply asc_nodup, listed_asc, stored_asc]. rewrite Eab in R'. rewrite !map_length, app_length in J. rewrite app_length in R'. cbn [List.length] in R'. lia.
    - destruct O as (_ & _ & _ & _ & ins & k & [(_ & _ & vs & _ & Vs & _)|(p & pm & Pp & _)] & _); [|congruence].
      destruct O' as (_ & _ & _ & _ & ins' & k' & [(_ & _ & vs' & _ & Vs' & _)|(p & pm & Pp & _)] & _); [|congruence].
      assert (Ly : In (s_id y) (map s_id (listed (stored (h ++ ys)) (mx_election m) TVote))) by (apply in_map, listed_in; split; assumption).
      rewrite <- Vs', Vs in Ly. apply in_map_iff in Ly as (z & Ez & Iz). apply listed_in in Iz as [Iz _]. apply (not_twice _ _ Hh z y); [apply (hist_stored dbg _ _ Hp), Iz|exact I|exact Ez].
    - destruct (Nd d eq_refl).
  Qed.

  (** most kinds are never refused later *)
  Theorem C96_settled : forall h ys x, history dbg (h ++ ys) -> acceptable dbg h x -> settled (s_tx x) -> acceptable dbg (h ++ ys) x.
  Proof.
    intros h ys x Hh A S. apply C96_stays; [exact Hh|exact A|]. intros y _ D.
    destruct D as [v T K|v T K|k T K|m T P K|d T K]; rewrite T in S; cbn [settled] in S; contradiction.
  Qed.
  (** no vote is recorded once the end of the voting is: then nothing takes a first mix away either *)
  Theorem C96_mix_after_end : forall h ys x m, history dbg (h ++ ys) -> acceptable dbg h x -> s_tx x = XMix m ->
    occupied h (slot0 (mx_election m) TVotingEnd) -> acceptable dbg (h ++ ys) x.
  Proof.
    intros h ys x m Hh A T (z & Iz & Ez). apply C96_stays; [exact Hh|exact A|]. intros y Iy D.
    assert (J : in_range (mx_election m) TVote y) by (destruct D as [v T' K|v T' K|k T' K|m' T' P K|d T' K]; rewrite T in T'; try discriminate T'; injection T' as <-; exact K).
    clear D. apply in_split in Iy as (a & b & ->). destruct J as [Je Jt].
    pose proof (hist_typed dbg _ y Hh ltac:(apply in_or_app; right; apply in_elt)) as Ty. rewrite Jt in Ty.
    rewrite app_assoc in Hh. destruct (hist_at dbg _ _ _ Hh) as (Hp & _ & V). apply (validate_iff _ _ (stored_holds (h ++ a))) in V as (_ & _ & V).
    unfold s_type in Ty. unfold s_id in Je. destruct (s_tx y) as [t|t|t|t|t|v|t|t|t|t] eqn:Ty'; try discriminate Ty. cbn [ok_tx] in V. cbn [tx_id] in Je.
    destruct V as (el & _ & (Id & _) & _ & _ & Ve & _). apply Ve. exists z. split; [apply (hist_stored dbg _ _ Hp), in_or_app; left; exact Iz|].
    rewrite Ez. unfold slot0. congruence.
  Qed.

  (** the order in which the same transactions were recorded leaves no trace in the store *)
  Lemma stored_order h h' : history dbg h -> history dbg h' -> (forall x, In x h <-> In x h') -> stored h = stored h'.
  Proof.
    intros A B E. apply asc_ext; [apply stored_asc..|]. intros x. rewrite (hist_stored dbg _ _ A), (hist_stored dbg _ _ B). apply E.
  Qed.
  Theorem C96_no_trace : forall h h', history dbg h -> history dbg h' -> (forall x, In x h <-> In x h') -> ms_from h = ms_from h'.
  Proof.
    intros h h' A B E. pose proof (stored_order h h' A B E) as S. unfold stored, contents in S.
    destruct (ms_wf_from h) as [_ W], (ms_wf_from h') as [_ W']. revert S W W'. generalize (ms_from h) (ms_from h'). clear.
    intros m. induction m as [|[k v] m IH]; intros [|[k' v'] m'] S W W'; try discriminate S; [reflexivity|]. cbn [map snd] in S. injection S as -> S.
    inversion W as [|? ? W1 W2]; subst. inversion W' as [|? ? W1' W2']; subst. cbn [fst snd] in *. f_equal; [congruence|apply IH; assumption].
  Qed.
  (** two transactions that do not disturb each other can be recorded in either order, with the same result *)
  Theorem C96_swap : forall h x y, history dbg h -> acceptable dbg h x -> acceptable dbg h y -> fresh h (s_id x) -> fresh h (s_id y) -> s_id x <> s_id y ->
    ~ disturbs x y -> ~ disturbs y x ->
    history dbg (h ++ [x; y]) /\ history dbg (h ++ [y; x]) /\ ms_from (h ++ [x; y]) = ms_from (h ++ [y; x]).
  Proof.
    assert (G : forall h x y, history dbg h -> acceptable dbg h x -> acceptable dbg h y -> fresh h (s_id x) -> fresh h (s_id y) -> s_id x <> s_id y ->
      ~ disturbs x y -> history dbg (h ++ [x; y])).
    { intros h x y Hh Ax Ay Fx Fy Ne D. replace (h ++ [x; y]) with ((h ++ [x]) ++ [y]) by (rewrite <- app_assoc; reflexivity).
      assert (H1 : history dbg (h ++ [x])) by (constructor; assumption). constructor; [exact H1| |].
      - intros z I. apply in_app_or in I as [I|[<-|[]]]; [exact (Fy z I)|exact Ne].
      - apply C96_stays; [exact H1|exact Ay|]. intros z [<-|[]]. exact D. }
    intros h x y Hh Ax Ay Fx Fy Ne D D'. assert (H1 := G h x y Hh Ax Ay Fx Fy Ne D). assert (H2 := G h y x Hh Ay Ax Fy Fx (not_eq_sym Ne) D').
    split; [exact H1|]. split; [exact H2|]. apply C96_no_trace; [exact H1|exact H2|]. intros z. rewrite !in_app_iff. cbn [In]. tauto.
  Qed.
End Props.

(** ** cases *)
#[local] Existing Instance Toy.
(** a second public key of the first trustee, with the proof of the other, listed last *)
Definition wrong_key : STx := sgn x0a (XPublicKey (mk_pubkey (mk_id (id_election EID) TKeyGenPublicKey (arr_rep xff 16)) EID x01 (pk_of x0a) egk (proof_of x02))).
Definition okb (h : list STx) (x : STx) : bool := is_ok (validate true (ms_store (ms_from h)) x).
Definition open_mix : list STx := setup (Some mixcfg) ++ voting.
Definition closed_plain : list STx := setup None ++ voting ++ firstn 5 ending_plain.
Definition dec1 : STx := decryption v20 0 [x01; x02] [sel (lit "yes")].
Definition third : STx := vote x22 (lit "yes").
Definition early : list STx := firstn 7 (setup None).
Lemma all1 : checks true [] (early ++ [wrong_key]) ms_empty && okb early enckey && negb (okb (early ++ [wrong_key]) enckey) = true.
Proof. vm_compute. reflexivity. Qed.
Lemma all2 : checks true [] (open_mix ++ [third]) ms_empty && okb open_mix mix1 && negb (okb (open_mix ++ [third]) mix1) = true.
Proof. vm_compute. reflexivity. Qed.
Lemma all3 : checks true [] (closed_plain ++ [wrong_key]) ms_empty && okb closed_plain dec1 && negb (okb (closed_plain ++ [wrong_key]) dec1) = true.
Proof. vm_compute. reflexivity. Qed.
Lemma all4 : checks true [] (setup None ++ voting) ms_empty && okb (setup None) (vote x21 (lit "no")) && true = true.
Proof. vm_compute. reflexivity. Qed.
Lemma all5 : checks true [] scene_mix ms_empty && okb (firstn 11 scene_mix) mix1 && true = true.
Proof. vm_compute. reflexivity. Qed.
Lemma three a b c : a && b && c = true -> a = true /\ b = true /\ c = true.
Proof. destruct a, b, c; auto. Qed.
Lemma is_ok_tt {E} (r : res E unit) : is_ok r = true <-> r = Ok tt.
Proof. destruct r as [[]| |]; split; intros H; try reflexivity; discriminate H. Qed.
Lemma okb_acceptable h x : okb h x = true <-> acceptable true h x.
Proof. apply is_ok_tt. Qed.
Lemma okb_refused h x : negb (okb h x) = true -> ~ acceptable true h x.
Proof. intros N A. apply okb_acceptable in A. rewrite A in N. discriminate. Qed.

#[local] Opaque checks okb.
(** false in general: an acceptable encryption key, an acceptable first mix and an acceptable decryption are refused
    after one more transaction of a trustee or voter is recorded *)
Theorem C96_stays_refuted :
  (exists h y x, history true (h ++ [y]) /\ acceptable true h x /\ s_type x = TEncryptionKey /\ ~ acceptable true (h ++ [y]) x)
  /\ (exists h y x, history true (h ++ [y]) /\ acceptable true h x /\ s_type x = TMix /\ ~ acceptable true (h ++ [y]) x)
  /\ (exists h y x, history true (h ++ [y]) /\ acceptable true h x /\ s_type x = TDecryption /\ occupied h (slot0 EID TVotingEnd) /\ ~ acceptable true (h ++ [y]) x).
Proof.
  destruct (three _ _ _ all1) as (A1 & A2 & A3), (three _ _ _ all2) as (B1 & B2 & B3), (three _ _ _ all3) as (D1 & D2 & D3). split; [|split].
  - exists early, wrong_key, enckey. split; [exact (run_history _ _ A1)|]. split; [exact (proj1 (okb_acceptable _ _) A2)|]. split; [reflexivity|exact (okb_refused _ _ A3)].
  - exists open_mix, third, mix1. split; [exact (run_history _ _ B1)|]. split; [exact (proj1 (okb_acceptable _ _) B2)|]. split; [reflexivity|exact (okb_refused _ _ B3)].
  - exists closed_plain, wrong_key, dec1. split; [exact (run_history _ _ D1)|]. split; [exact (proj1 (okb_acceptable _ _) D2)|]. split; [reflexivity|].
    split; [|exact (okb_refused _ _ D3)]. exists votingend. split; [apply in_or_app; right; apply in_or_app; right; left; reflexivity|reflexivity].
Qed.

Example C96_disturbed_case : history true (open_mix ++ [third]) /\ acceptable true open_mix mix1 /\ disturbs third mix1.
Proof.
  destruct (three _ _ _ all2) as (B1 & B2 & B3). split; [exact (run_history _ _ B1)|]. split; [exact (proj1 (okb_acceptable _ _) B2)|].
  refine (d_vote third mix1 (mix_of x0a x01 x00 None VIDS rows1) eq_refl eq_refl _). split; reflexivity.
Qed.
Example C96_stays_case : history true (setup None ++ voting) /\ acceptable true (setup None) (vote x21 (lit "no")) /\ ~ disturbs (vote x20 (lit "yes")) (vote x21 (lit "no")).
Proof.
  destruct (three _ _ _ all4) as (B1 & B2 & _). split; [exact (run_history _ _ B1)|]. split; [exact (proj1 (okb_acceptable _ _) B2)|]. intros D.
  destruct D as [v T (_ & _ & K)|v T K|k T K|m T P K|d T K]; try discriminate T; injection T as <-.
  - apply (f_equal (hd x00)) in K. discriminate K.
  - apply (f_equal id_type) in K. discriminate K.
Qed.
Example C96_after_end_case : s_tx mix1 = XMix (mix_of x0a x01 x00 None VIDS rows1) /\ history true (firstn 11 scene_mix ++ skipn 11 scene_mix) /\ acceptable true (firstn 11 scene_mix) mix1
  /\ occupied (firstn 11 scene_mix) (slot0 EID TVotingEnd).
Proof.
  destruct (three _ _ _ all5) as (B1 & B2 & _). split; [reflexivity|]. split; [rewrite firstn_skipn; exact (run_history _ _ B1)|]. split; [exact (proj1 (okb_acceptable _ _) B2)|].
  exists votingend. split; [do 10 right; left; reflexivity|reflexivity].
Qed.

Print Assumptions C96_stays.
Print Assumptions C96_disturbed.
Print Assumptions C96_settled.
Print Assumptions C96_mix_after_end.
Print Assumptions C96_no_trace.
Print Assumptions C96_swap.
Print Assumptions C96_stays_refuted.
