(** * C88: nobody is given more votes than were cast for them. *)
From Verif Require Import Base BaseFacts Utf8 Hex HexFacts Cbor Ident BuildId IdentFacts Crypto Types Serde Store SpecStore StoreFacts
  Prost SpecProst Props_Prost Validate ValidateFacts SpecValid ValidFacts ValidFacts2 ValidFacts3 SpecHist HistFacts SpecMix MixFacts SpecDecrypt DecryptFacts Exonum Api Audit AuditFacts
  Encrypt Trustee Lagrange SpecThreshold ThresholdFacts Props_Threshold SpecIntegrity IntegrityFacts Props_Integrity
  SpecTally Tally TallyFacts SpecOutcome SpecBound SpecAudit Props_Audit Props_Tally Props_Outcome.
From Coq Require Import ZifyBool ZifyNat ZifyN Sorting.Permutation.
Import List ListNotations.
Open Scope list_scope.

Lemma count_bound {A B X} (f : B -> bool) (ka : A -> X) (va : A -> B) (ds : list A) (ps : list (X * B)) :
  NoDup (map ka ds) -> (forall d, In d ds -> In (ka d, va d) ps) ->
  List.length (filter f (map va ds)) <= List.length (filter f (map snd ps)).
Proof.
  intros N H. rewrite <- (filter_map_len va f), <- (filter_map_len snd f).
  rewrite <- (map_length (fun d => (ka d, va d)) (filter _ ds)). apply NoDup_incl_length.
  - apply (NoDup_map_inv fst). rewrite map_map. cbn [fst]. clear H. induction ds as [|d ds IH]; [constructor|].
    cbn [map] in N. inversion N as [|? ? Nd Nds]; subst. cbn [filter]. destruct (f (va d)); [|auto]. cbn [map]. constructor; [|auto].
    intros I. apply Nd. apply in_map_iff in I as (d' & E & I). apply filter_In in I as [I _]. apply in_map_iff. eauto.
  - intros p I. apply in_map_iff in I as (d & <- & I). apply filter_In in I as [I F]. apply filter_In. auto.
Qed.
Lemma all_len {B} (l : list B) : List.length l = List.length (filter (fun _ => true) l).
Proof. induction l as [|x l IH]; [reflexivity|]. cbn [filter List.length]. congruence. Qed.

Section Props.
  Context {C : Crypto} {TC : TCrypto} {K : Fld} {M : Mdl} (S : threshold_scheme K M) (SP : sound_proofs S).

  Lemma bounded order s L e t bs : fair order -> holds s L -> e2e_tally order s e = Ok t ->
    (forall ds, range_is L e TDecryption XDecryption ds -> forall f, List.length (filter f (map dc_vote ds)) <= List.length (filter f bs)) ->
    no_more bs t.
  Proof.
    intros Fo Ho E H. destruct (C63_first_selections_partial order s L e t Fo Ho E) as (ds & R & _ & _ & G & Q).
    specialize (H ds R). split.
    - intros name n I. apply Q in I as [_ ->]. exists (N.of_nat (List.length (filter (chooses name) bs))). split; [apply chosen_count; reflexivity|].
      specialize (H (chooses name)). rewrite <- (filter_map_len dc_vote) in H.
      replace (filter _ ds) with (filter (fun x => chooses name (dc_vote x)) ds); [lia|].
      apply filter_ext. intros d. unfold chooses, first_text. destruct (dc_vote d); reflexivity.
    - assert (X : fold_right N.add 0%N (map snd t) = grand t).
      { clear. unfold grand. induction t as [|[a b] t IH]; [reflexivity|]. cbn [map fold_right snd]. rewrite IH. reflexivity. }
      rewrite X, G. specialize (H (fun _ => true)). rewrite <- !all_len, map_length in H. lia.
  Qed.
  Lemma decs_of L e ds : range_is L e TDecryption XDecryption ds ->
    map s_id (listed L e TDecryption) = map dc_id ds /\ forall d, In d ds -> exists x, In x L /\ s_tx x = XDecryption d /\ id_election (s_id x) = id_election e.
  Proof.
    unfold range_is. intros R. split.
    - transitivity (map tx_id (map s_tx (listed L e TDecryption))); [rewrite map_map; reflexivity|]. rewrite R, map_map. reflexivity.
    - intros d I. apply (in_map XDecryption) in I. rewrite <- R in I. apply in_map_iff in I as (x & Tx & I).
      apply listed_in in I as (I & Ei & _). eauto.
  Qed.
  Lemma election_slot dbg l e el : history dbg l -> at_id l e (XElection el) -> e = slot0 e TElection /\ el_id el = e.
  Proof.
    intros Hl (x & Ix & Ei & Tx). destruct (hist_accepted dbg l x Hl Ix) as (p & q & _ & _ & _ & V).
    apply (validate_iff _ _ (stored_holds p)) in V as (_ & _ & V). rewrite Tx in V. cbn [ok_tx] in V. destruct V as (V & _).
    unfold s_id in Ei. rewrite Tx in Ei. cbn in Ei. rewrite Ei in V. auto.
  Qed.
  Lemma dec_election dbg l e el x d : history dbg l -> at_id l e (XElection el) -> In x l -> s_tx x = XDecryption d ->
    id_election (s_id x) = id_election e -> dc_election d = e /\ s_id x = decryption_build_id (dc_election d) (dc_upstream d) (dc_contest d) (dc_index d)
      /\ exists row, row_at l el (dc_upstream d) (dc_index d) (dc_contest d) row.
  Proof.
    intros Hl Hel Ix Tx Ei. destruct (hist_accepted dbg l x Hl Ix) as (p & q & E & Hp & _ & V).
    apply (decryption_accepted dbg _ _ x d (stored_holds p) Tx) in V as (el' & row & pks & parts & He & Hi & Hr & _).
    apply (proj1 (at_id_stored dbg p _ _ Hp)) in He. apply (at_id_mono _ (x :: q)) in He. rewrite <- E in He.
    destruct (election_slot dbg l _ _ Hl He) as [S1 _], (election_slot dbg l _ _ Hl Hel) as [S2 _].
    assert (Si : s_id x = dc_id d) by (unfold s_id; rewrite Tx; reflexivity).
    assert (Ee : dc_election d = e).
    { rewrite S1, S2. unfold slot0. f_equal. rewrite <- Ei, Si, Hi. reflexivity. }
    split; [exact Ee|]. split; [congruence|]. exists row. rewrite Ee in He.
    pose proof (history_at_id_fun dbg l _ _ _ Hl He Hel) as Q. injection Q as ->.
    apply (row_at_stored dbg p) in Hr; [|exact Hp]. apply (row_at_mono p (x :: q)) in Hr. rewrite <- E in Hr. exact Hr.
  Qed.
  (** the ballots with the identifier of the vote each was cast in *)
  Lemma rows_pairs P c vs rows : rows_in c vs rows -> forall bs, Forall2 (row_of S P sel_encode) bs rows -> Forall (Forall fits) bs ->
    exists ps : list (Identifier * list Selection), map snd ps = bs
      /\ forall v ev, In v vs -> first_with (fun ev => ev_contest ev = c) (vt_votes v) ev ->
           exists b, In (vt_id v, b) ps /\ row_of S P sel_encode b (ev_selections ev) /\ Forall fits b.
  Proof.
    induction 1 as [|v vs rows N _ IH|v ev vs rows Fw _ IH]; intros bs F Fi.
    - inversion F; subst. exists []. split; [reflexivity|]. intros v ev [].
    - destruct (IH bs F Fi) as (ps & E & H). exists ps. split; [exact E|]. intros v' ev' [<-|I] X; [|eauto].
      apply first_in in X as [X1 X2]. destruct (N ev' X1 X2).
    - inversion F as [|b row bs' rows' Fb Fr]; subst. inversion Fi as [|? ? Fib Fis]; subst. destruct (IH bs' Fr Fis) as (ps & E & H).
      exists ((vt_id v, b) :: ps). split; [cbn [map snd]; congruence|]. intros v' ev' [<-|I] X.
      + rewrite (first_with_fun _ _ _ _ X Fw). exists b. split; [left; reflexivity|]. auto.
      + destruct (H v' ev' I X) as (b' & B1 & B2). exists b'. split; [right; exact B1|exact B2].
  Qed.

  Definition one_contest (l : list STx) (e : Identifier) (c : u32) : Prop :=
    forall x d, In x l -> s_tx x = XDecryption d -> dc_election d = e -> dc_contest d = c.
  Definition own_upstream (l : list STx) (e : Identifier) : Prop :=
    forall x d, In x l -> s_tx x = XDecryption d -> dc_election d = e -> id_election (dc_upstream d) = id_election e.

  Lemma audited_from dbg txs m : NoDup (map s_id txs) -> audit dbg txs = Ok m -> m = ms_from txs.
  Proof.
    intros N A. unfold audit in A. destruct txs as [|y l]; [discriminate|]. destruct (negb _); [discriminate|]. cbn [fail_if bind] in A.
    apply (audit_from_history dbg (y :: l) [] m) in A as [_ ->]; auto; constructor.
  Qed.
  Lemma same_election_all l e : forallb (fun x => arr_eqb (id_election (s_id x)) (id_election e)) l = true -> forall x, In x l -> id_election (s_id x) = id_election e.
  Proof. rewrite forallb_forall. intros H x Ix. apply arr_eqb_eq, H, Ix. Qed.
  Lemma contest_all l e c :
    forallb (fun x => match s_tx x with XDecryption d => u_eqb (dc_contest d) c | _ => true end) l = true -> one_contest l e c.
  Proof. rewrite forallb_forall. intros H x d Ix Tx _. specialize (H x Ix). rewrite Tx in H. apply u_eqb_eq, H. Qed.
  Lemma recorded_mono p q ids vs : recorded_votes p ids vs -> recorded_votes (p ++ q) ids vs.
  Proof. induction 1; constructor; auto using at_id_mono. Qed.

  (** without mixnet *)
  Theorem C88_no_mixnet_partial : forall dbg l e el P c bs order t,
    history dbg l -> keyed S SP l e el P -> el_mix_config el = None -> one_contest l e c -> own_upstream l e ->
    cast_in S P l e c bs -> fair order -> e2e_tally order (ms_store (ms_from l)) e = Ok t -> no_more bs t.
  Proof.
    intros dbg l e el P c bs order t Hl KD Mc One Own (vs & rows & (_ & Vs) & Rows & En & Fi) Fo Et.
    destruct (rows_pairs P c vs rows Rows bs En Fi) as (ps & <- & Hp).
    apply (bounded order _ (stored l) e t _ Fo (stored_holds l) Et). intros ds R f. destruct (decs_of _ _ _ R) as [Ids Ds].
    assert (Kel := kd_election _ _ _ _ _ _ KD).
    assert (G : forall d, In d ds -> exists x, In x l /\ s_tx x = XDecryption d /\ dc_election d = e
      /\ dc_id d = decryption_build_id e (dc_upstream d) c (dc_index d) /\ uv (dc_index d) = 0%N
      /\ exists v ev, at_id l (dc_upstream d) (XVote v) /\ first_with (fun ev => ev_contest ev = c) (vt_votes v) ev).
    { intros d I. destruct (Ds d I) as (x & Ix & Tx & Ei). apply (hist_stored dbg l x Hl) in Ix. exists x. split; [exact Ix|]. split; [exact Tx|].
      destruct (dec_election dbg l e el x d Hl Kel Ix Tx Ei) as (E1 & E2 & row & Hr). split; [exact E1|].
      rewrite (One x d Ix Tx E1) in *. rewrite E1 in E2. unfold s_id in E2. rewrite Tx in E2. split; [exact E2|].
      destruct Hr as [(_ & _ & Z & v & ev & A & B & _)|(_ & X & _)]; [|congruence]. split; [exact Z|]. eauto. }
    apply (count_bound f dc_upstream dc_vote).
    - apply (NoDup_map_inv (fun up => decryption_build_id e up c (u_of 2 0))). rewrite map_map.
      assert (N : NoDup (map dc_id ds)) by (rewrite <- Ids; apply asc_nodup, listed_asc, stored_asc).
      replace (map (fun x => decryption_build_id e (dc_upstream x) c (u_of 2 0)) ds) with (map dc_id ds); [exact N|].
      apply map_ext_in. intros d I. destruct (G d I) as (x & _ & _ & _ & E & Z & _). rewrite E. do 2 f_equal. apply u_ext. exact Z.
    - intros d I. destruct (G d I) as (x & Ix & Tx & Ee & _ & _ & v & ev & A & B). pose proof A as (y & Iy & Ey & Ty).
      assert (Vi : vt_id v = dc_upstream d) by (rewrite <- Ey; unfold s_id; rewrite Ty; reflexivity).
      assert (Ve : vt_election v = e).
      { destruct (hist_accepted dbg l y Hl Iy) as (p & q & Ep & Hp' & _ & V). apply (validate_iff _ _ (stored_holds p)) in V as (_ & _ & V).
        rewrite Ty in V. cbn [ok_tx] in V. destruct V as (el' & He & (V & _) & _).
        apply (proj1 (at_id_stored dbg p _ _ Hp')) in He. apply (at_id_mono _ (y :: q)) in He. rewrite <- Ep in He.
        destruct (election_slot dbg l _ _ Hl He) as [S1 _], (election_slot dbg l _ _ Hl Kel) as [S2 _].
        rewrite S1, S2. unfold slot0. f_equal. rewrite <- V, Vi. exact (Own x d Ix Tx Ee). }
      destruct (Hp v ev) as (b & B1 & B2 & B3); [apply Vs; eauto|exact B|]. 
      assert (B' : first_with (fun ev => ev_contest ev = dc_contest d) (vt_votes v) ev) by (rewrite (One x d Ix Tx Ee); exact B).
      rewrite (C65_vote_shown S SP dbg l e el P x d v ev b Hl KD Mc Ix Tx Ee A B' B2 B3), <- Vi. exact B1.
  Qed.

  (** with a mixnet, if only the rows of one mix are decrypted *)
  Theorem C88_one_mix_partial : forall dbg l e el P m bs order t,
    reencrypting S -> history dbg l -> keyed S SP l e el P -> at_id l (mx_id m) (XMix m) -> mx_election m = e ->
    (forall x d, In x l -> s_tx x = XDecryption d -> dc_election d = e -> dc_upstream d = mx_id m) ->
    mixed_in S P l m bs -> fair order -> e2e_tally order (ms_store (ms_from l)) e = Ok t -> no_more bs t.
  Proof.
    intros dbg l e el P m bs order t Re Hl KD Hm Me Up (vs & Rv & En & Fi) Fo Et.
    destruct (C65_mixed_vote_shown S SP dbg l e el P m vs bs Re Hl KD Hm Me Rv En Fi) as (shown & Pm & Sh).
    apply (bounded order _ (stored l) e t _ Fo (stored_holds l) Et). intros ds R f. destruct (decs_of _ _ _ R) as [Ids Ds].
    rewrite (filter_perm_len f _ _ Pm).
    assert (Kel := kd_election _ _ _ _ _ _ KD).
    assert (G : forall d, In d ds -> dc_id d = decryption_build_id e (mx_id m) (mx_contest m) (dc_index d)
      /\ nth_error shown (N.to_nat (uv (dc_index d))) = Some (dc_vote d)).
    { intros d I. destruct (Ds d I) as (x & Ix & Tx & Ei). apply (hist_stored dbg l x Hl) in Ix.
      destruct (dec_election dbg l e el x d Hl Kel Ix Tx Ei) as (E1 & E2 & row & Hr). rewrite E1, (Up x d Ix Tx E1) in E2.
      unfold s_id in E2. rewrite Tx in E2. split; [|apply (Sh x d Ix Tx E1), (Up x d Ix Tx E1)].
      destruct Hr as [(X & _)|(_ & _ & m' & A & Ec & _)].
      - rewrite (Up x d Ix Tx E1) in X. destruct Hm as (y & Iy & Ey & Ty). pose proof (hist_typed dbg l y Hl Iy) as Z.
        unfold s_type in Z. rewrite Ty, Ey, X in Z. discriminate Z.
      - rewrite (Up x d Ix Tx E1) in A. pose proof (history_at_id_fun dbg l _ _ _ Hl A Hm) as Q. injection Q as ->. rewrite <- Ec in E2. exact E2. }
    set (ps := combine (seq 0 (List.length shown)) shown).
    assert (Es : map snd ps = shown).
    { unfold ps. clear. generalize 0 as k. induction shown as [|b shown IH]; intros k; [reflexivity|]. cbn [List.length seq combine map snd]. rewrite IH. reflexivity. }
    rewrite <- Es at 1. apply (count_bound f (fun d => N.to_nat (uv (dc_index d))) dc_vote).
    - apply (NoDup_map_inv (fun i => decryption_build_id e (mx_id m) (mx_contest m) (u_of 2 (N.of_nat i)))). rewrite map_map.
      assert (N : NoDup (map dc_id ds)) by (rewrite <- Ids; apply asc_nodup, listed_asc, stored_asc).
      replace (map _ ds) with (map dc_id ds); [exact N|].
      apply map_ext_in. intros d I. destruct (G d I) as [E _]. rewrite E, N2Nat.id. do 2 f_equal. apply u_ext. symmetry. apply N.mod_small, uv_lt.
    - intros d I. destruct (G d I) as [_ E]. unfold ps. revert E. generalize (N.to_nat (uv (dc_index d))) as i. generalize (dc_vote d) as b. clear.
      assert (H : forall k i (b : list Selection), nth_error shown i = Some b -> In (k + i, b) (combine (seq k (List.length shown)) shown)).
      { induction shown as [|a shown IH]; intros k [|i] b E; try discriminate E; cbn [List.length seq combine].
        - injection E as ->. left. f_equal. lia.
        - right. replace (k + Datatypes.S i) with (Datatypes.S k + i) by lia. apply IH, E. }
      intros b i E. exact (H 0 i b E).
  Qed.
  (** the same of the transactions of one election that pass the audit and repeat no identifier: that
      decryptions are of votes of the election is then checked by the audit *)
  Theorem C88_audited_partial : forall dbg txs m e el P c bs order t,
    NoDup (map s_id txs) -> (forall x, In x txs -> id_election (s_id x) = id_election e) ->
    audit dbg txs = Ok m -> keyed S SP txs e el P -> el_mix_config el = None -> one_contest txs e c ->
    cast_in S P txs e c bs -> fair order -> e2e_tally order (ms_store m) e = Ok t -> no_more bs t.
  Proof.
    intros dbg txs m e el P c bs order t N Al A KD Mc One Ca Fo Et.
    pose proof (C62_audited_is_history_partial dbg txs m N A) as Hl.
    pose proof (audited_from dbg txs m N A) as Em.
    rewrite Em in Et. refine (C88_no_mixnet_partial dbg txs e el P c bs order t Hl KD Mc One _ Ca Fo Et).
    intros x d Ix Tx Ee. destruct (dec_election dbg txs e el x d Hl (kd_election _ _ _ _ _ _ KD) Ix Tx (Al x Ix)) as (_ & _ & row & Hr).
    destruct Hr as [(_ & _ & _ & v & ev & (y & Iy & Ey & _) & _)|(_ & _ & m' & (y & Iy & Ey & _) & _)]; rewrite <- Ey; exact (Al y Iy).
  Qed.
  Theorem C88_audited_mix_partial : forall dbg txs st e el P m bs order t,
    reencrypting S -> NoDup (map s_id txs) -> audit dbg txs = Ok st -> keyed S SP txs e el P -> at_id txs (mx_id m) (XMix m) -> mx_election m = e ->
    (forall x d, In x txs -> s_tx x = XDecryption d -> dc_election d = e -> dc_upstream d = mx_id m) ->
    mixed_in S P txs m bs -> fair order -> e2e_tally order (ms_store st) e = Ok t -> no_more bs t.
  Proof.
    intros dbg txs st e el P m bs order t Re N A KD Hm Me Up Mi Fo Et.
    pose proof (C62_audited_is_history_partial dbg txs st N A) as Hl.
    pose proof (audited_from dbg txs st N A) as Em.
    rewrite Em in Et. exact (C88_one_mix_partial dbg txs e el P m bs order t Re Hl KD Hm Me Up Mi Fo Et).
  Qed.
End Props.

(** ** elections over the instance of ToyE: three trustees, threshold two *)
From Verif Require Import Toy ToyT ToyE Scene.
From Coq Require Strings.String.
Import String.StringSyntax.
Section Case.
  Local Existing Instance ToyE.
  Local Existing Instance ToyET.
  Local Existing Instance Fq.
  Local Existing Instance Gq.

  Definition partU (i : byte) (up : Identifier) (j : N) (row : list Ciphertext) : STx :=
    let shs := flat_map (fun p => if Byte.eqb (tr_index (fst p)) i then ask p row else []) T3 in
    sgnE (who3 i) (XPartial (mk_partial (partial_build_id e3 up (n32 0) (n16 j) i) e3 up (n16 j) (n32 0) i (pkE (who3 i)) shs)).
  Definition decU (up : Identifier) (j : N) (ts : list byte) (v : list Selection) : STx :=
    sgnE x00 (XDecryption (mk_decryption (decryption_build_id e3 up (n32 0) (n16 j)) e3 up (n16 j) (n32 0) ts v)).
  Definition eln : ElectionTx := mk_election e3 (pkE x01) (map fst T3) x02 [] x00 None [ballot1] [contest0] no_props.
  Definition endn : STx := sgnE x01 (XVotingEnd (mk_votingend (votingend_build_id e3) e3 (pkE x01))).
  Definition startn (votes : list STx) : list STx :=
    [sgnE x01 (XElection eln)] ++ map com3 T3 ++ map sha3 T3 ++ map (fun x => sgnE (who3 (kp_trustee x)) (XPublicKey x)) pub3
    ++ [sgnE x01 (XEncryptionKey (mk_enckey (enckey_build_id e3) e3 (pkE x01) key3))] ++ votes ++ [endn].
  Definition vid (k : byte) : Identifier := vote_build_id e3 (key_of k).
  (** without mixnet: three votes, of which the trustees decrypt two *)
  Definition alln : list STx := startn [vote3 x20 yes3; vote3 x21 no3; vote3 x22 yes3]
    ++ [partU x01 (vid x20) 0 (row3 x20 yes3); partU x03 (vid x20) 0 (row3 x20 yes3); partU x02 (vid x21) 0 (row3 x21 no3); partU x03 (vid x21) 0 (row3 x21 no3);
        decU (vid x20) 0 [x01; x03] yes3; decU (vid x21) 0 [x02; x03] no3].
  Lemma keyed_in l el : at_id l e3 (XElection el) -> el_threshold el = x02 -> proofs_fit P3 l = true -> keyed toy_scheme toy_proofs l e3 el P3.
  Proof.
    intros A Et H. unfold proofs_fit in H. rewrite forallb_forall in H. split; [exact A|rewrite Et; vm_compute; discriminate|rewrite Et; vm_compute; discriminate| |].
    - intros y x Hy _ Ty. specialize (H y Hy). rewrite Ty in H. apply N.eqb_eq in H. apply sub_ext. exact H.
    - intros k (y & Hy & _ & Ty). specialize (H y Hy). rewrite Ty in H. apply cval_eqb_eq in H. apply sub_ext in H.
      transitivity key3; [exact H|exact key3_is].
  Qed.
  Definition result (l : list STx) := e2e_tally straight (ms_store (ms_from l)) e3.
  Fixpoint distinct (l : list Identifier) : bool := match l with [] => true | x :: l' => negb (existsb (id_eqb x) l') && distinct l' end.
  Lemma distinct_nodup l : distinct l = true -> NoDup l.
  Proof.
    induction l as [|x l IH]; intros H; [constructor|]. apply andb_prop in H as [H1 H2]. constructor; [|auto].
    intros I. apply negb_true_iff in H1. assert (X : existsb (id_eqb x) l = true) by (apply existsb_exists; exists x; split; [exact I|apply id_eqb_eq; reflexivity]). congruence.
  Qed.
  Definition audited (l : list STx) : bool := distinct (map s_id l) && is_ok (audit true l).
  (** the rows of both mixes are decrypted *)
  Definition aid : Identifier := mx_id mixA.
  Definition rowA (j : nat) : list Ciphertext := nth j (mx_out mixA) [].
  Definition twice : list STx := all3
    ++ [partU x01 aid 0 (rowA 0); partU x02 aid 0 (rowA 0); partU x01 aid 1 (rowA 1); partU x02 aid 1 (rowA 1);
        decU aid 0 [x01; x02] no3; decU aid 1 [x01; x02] yes3].

  Definition votes_list (l : list STx) : list VoteTx := flat_map (fun x => match s_tx x with XVote v => [v] | _ => [] end) l.
  Lemma votes_listed dbg l e : history dbg l -> forallb (fun v => id_eqb (vt_election v) e) (votes_list l) = true -> votes_for l e (votes_list l).
  Proof.
    intros Hl H. rewrite forallb_forall in H. split.
    - apply (NoDup_map_inv vt_id). unfold votes_list. pose proof (hist_nodup dbg l Hl) as N. clear Hl H. induction l as [|x l IH]; [constructor|].
      cbn [map] in N. inversion N as [|? ? Nx Nl]; subst. cbn [flat_map]. rewrite map_app.
      destruct (s_tx x) as [t|t|t|t|t|v|t|t|t|t] eqn:Tx; cbn [map app]; auto.
      constructor; [|auto]. intros I. apply Nx. apply in_map_iff in I as (w & E & I). apply in_flat_map in I as (y & Iy & I).
      destruct (s_tx y) as [t|t|t|t|t|v'|t|t|t|t] eqn:Ty; try destruct I as [].
      { subst v'. apply in_map_iff. exists y. split; [|exact Iy]. unfold s_id. rewrite Tx, Ty. exact E. }
      contradiction.
    - intros v. split.
      + intros I. pose proof (H v I) as E. apply id_eqb_eq in E. apply in_flat_map in I as (x & Ix & I).
        exists x. split; [exact Ix|]. split; [|exact E].
        destruct (s_tx x); try destruct I as []; [congruence|contradiction].
      + intros (x & Ix & Tx & _). apply in_flat_map. exists x. split; [exact Ix|]. rewrite Tx. left. reflexivity.
  Qed.
  Definition totals_eqb (a b : list (bytes * N)) : bool :=
    Nat.eqb (List.length a) (List.length b) && forallb (fun p => bytes_eqb (fst (fst p)) (fst (snd p)) && N.eqb (snd (fst p)) (snd (snd p))) (combine a b).
  Lemma totals_eqb_eq a : forall b, totals_eqb a b = true -> a = b.
  Proof.
    induction a as [|[k n] a IH]; intros [|[k' n'] b] H; try discriminate H; [reflexivity|].
    apply andb_prop in H as [H1 H2]. cbn [combine forallb fst snd] in H2. apply andb_prop in H2 as [H2 H3]. apply andb_prop in H2 as [H2 H4].
    apply bytes_eqb_eq in H2. apply N.eqb_eq in H4. subst. f_equal. apply IH. unfold totals_eqb. rewrite H3. cbn in H1. rewrite H1. reflexivity.
  Qed.
  Definition scene (l : list STx) (t : list (bytes * N)) : bool :=
    audited l && proofs_fit P3 l && match result l with Ok t' => totals_eqb t' t | _ => false end.
  Lemma scene_ok l t el : scene l t = true -> at_id l e3 (XElection el) -> el_threshold el = x02 ->
    NoDup (map s_id l) /\ history true l /\ keyed toy_scheme toy_proofs l e3 el P3
    /\ exists m, audit true l = Ok m /\ e2e_tally straight (ms_store m) e3 = Ok t.
  Proof.
    unfold scene, audited. intros H A Et. apply andb_prop in H as [H H4]. apply andb_prop in H as [H H3]. apply andb_prop in H as [H1 H2].
    assert (N : NoDup (map s_id l)) by (apply distinct_nodup, H1). split; [exact N|].
    destruct (audit true l) as [m|?|?] eqn:Am; try discriminate H2. split; [exact (C62_audited_is_history_partial true l m N Am)|].
    split; [apply keyed_in; assumption|]. exists m. split; [reflexivity|]. rewrite (audited_from true l m N Am). fold (result l).
    destruct (result l) as [t'|?|?]; try discriminate H4. f_equal. apply totals_eqb_eq, H4.
  Qed.
  Lemma alln_scene : scene alln [(sv (lit "yes"), 1%N); (sv (lit "no"), 1%N)] = true.
  Proof. vm_compute. reflexivity. Qed.
  Lemma twice_scene : scene twice [(sv (lit "no"), 2%N); (sv (lit "yes"), 2%N)] = true.
  Proof. vm_compute. reflexivity. Qed.

  Lemma here l x e t : nth_error l 0 = Some x -> s_id x = e -> s_tx x = t -> at_id l e t.
  Proof. destruct l; [discriminate|]. intros E. injection E as ->. intros Ei Et. exists x. split; [left; reflexivity|auto]. Qed.
  (** the hypotheses of C88_audited_partial; two of the three votes are decrypted *)
  Example C88_case : exists m,
    NoDup (map s_id alln) /\ (forall x, In x alln -> id_election (s_id x) = id_election e3)
    /\ audit true alln = Ok m /\ keyed toy_scheme toy_proofs alln e3 eln P3 /\ el_mix_config eln = None
    /\ one_contest alln e3 (n32 0) /\ cast_in toy_scheme P3 alln e3 (n32 0) [yes3; no3; yes3] /\ fair straight
    /\ e2e_tally straight (ms_store m) e3 = Ok [(sv (lit "yes"), 1%N); (sv (lit "no"), 1%N)].
  Proof.
    assert (A : at_id alln e3 (XElection eln)) by (eapply here; reflexivity).
    destruct (scene_ok alln _ eln alln_scene A eq_refl) as (N & Hl & KD & m & Am & Rs). exists m.
    split; [exact N|]. split; [apply same_election_all; vm_compute; reflexivity|].
    split; [exact Am|]. split; [exact KD|]. split; [reflexivity|]. split; [apply contest_all; vm_compute; reflexivity|].
    split.
    { exists (votes_list alln), [row3 x20 yes3; row3 x21 no3; row3 x22 yes3]. split; [apply (votes_listed true alln e3 Hl); reflexivity|].
      split.
      - change (votes_list alln) with [votetx3 x20 yes3; votetx3 x21 no3; votetx3 x22 yes3].
        apply (ri_some (n32 0) (votetx3 x20 yes3) (mk_encvote (n32 0) (row3 x20 yes3))); [exists [], []; split; [reflexivity|split; [reflexivity|intros ? []]]|].
        apply (ri_some (n32 0) (votetx3 x21 no3) (mk_encvote (n32 0) (row3 x21 no3))); [exists [], []; split; [reflexivity|split; [reflexivity|intros ? []]]|].
        apply (ri_some (n32 0) (votetx3 x22 yes3) (mk_encvote (n32 0) (row3 x22 yes3))); [exists [], []; split; [reflexivity|split; [reflexivity|intros ? []]]|].
        constructor.
      - split; [|repeat constructor; unfold fits; vm_compute; reflexivity].
        constructor; [exact (row3_of x20 yes3)|constructor; [exact (row3_of x21 no3)|constructor; [exact (row3_of x22 yes3)|constructor]]]. }
    split; [exact straight_fair|exact Rs].
  Qed.
  (** those of C88_one_mix_partial *)
  Lemma all3_result : match result all3 with Ok t => totals_eqb t [(sv (lit "yes"), 1%N); (sv (lit "no"), 1%N)] | _ => false end = true.
  Proof. vm_compute. reflexivity. Qed.
  Example C88_mix_case : reencrypting toy_scheme /\ history true all3 /\ keyed toy_scheme toy_proofs all3 e3 el3 P3
    /\ at_id all3 (mx_id mixB) (XMix mixB) /\ mx_election mixB = e3
    /\ (forall x d, In x all3 -> s_tx x = XDecryption d -> dc_election d = e3 -> dc_upstream d = mx_id mixB)
    /\ mixed_in toy_scheme P3 all3 mixB [yes3; no3]
    /\ result all3 = Ok [(sv (lit "yes"), 1%N); (sv (lit "no"), 1%N)].
  Proof.
    destruct C65_case as (H1 & H2 & H3 & H4 & H5 & H6 & H7 & H8 & _). split; [exact H1|]. split; [exact H2|]. split; [exact H3|]. split; [exact H4|].
    split; [exact H5|]. split.
    { intros x d Ix Tx _. unfold all3 in Ix. apply in_app_or in Ix as [Ix|Ix].
      - exfalso. unfold start3 in Ix. repeat (apply in_app_or in Ix as [Ix|Ix]).
        + destruct Ix as [<-|[]]. discriminate Tx.
        + apply in_map_iff in Ix as (p & <- & _). discriminate Tx.
        + apply in_map_iff in Ix as (p & <- & _). discriminate Tx.
        + apply in_map_iff in Ix as (p & <- & _). discriminate Tx.
        + repeat (destruct Ix as [<-|Ix]; [discriminate Tx|]). destruct Ix.
      - repeat (destruct Ix as [<-|Ix]; [try discriminate Tx; injection Tx as <-; reflexivity|]). destruct Ix. }
    split; [exists [votetx3 x20 yes3; votetx3 x21 no3]; auto|].
    pose proof all3_result as R. destruct (result all3) as [t|?|?]; try discriminate R. f_equal. apply totals_eqb_eq, R.
  Qed.
  Lemma counted_twice : exists m el st, NoDup (map s_id twice) /\ history true twice /\ audit true twice = Ok st /\ keyed toy_scheme toy_proofs twice e3 el P3
    /\ at_id twice (mx_id m) (XMix m) /\ mx_election m = e3 /\ mixed_in toy_scheme P3 twice m [yes3; no3]
    /\ e2e_tally straight (ms_store st) e3 = Ok [(sv (lit "no"), 2%N); (sv (lit "yes"), 2%N)].
  Proof.
    assert (A : at_id twice e3 (XElection el3)) by (eapply here; reflexivity).
    destruct (scene_ok twice _ el3 twice_scene A eq_refl) as (N & Hl & KD & st & Am & Rs). exists mixB, el3, st.
    destruct C65_case as (_ & _ & _ & H4 & H5 & H6 & H7 & H8 & _). split; [exact N|].
    split; [exact Hl|]. split; [exact Am|]. split; [exact KD|]. split; [apply at_id_mono, H4|]. split; [exact H5|]. split; [|exact Rs].
    exists [votetx3 x20 yes3; votetx3 x21 no3]. split; [|auto].
    apply recorded_mono, H6.
  Qed.
End Case.

(** C88 claims [no_more] for every audited election.  Two voters, one "yes" and one "no"; the trustees
    decrypt the rows of both mixes: the audit passes and two of each are printed. *)
Theorem C88_counted_twice_refuted :
  exists (C : Crypto) (TC : TCrypto) (K : Fld) (M : Mdl) (S : threshold_scheme K M) (SP : sound_proofs S) txs st e el P m bs t,
    reencrypting S /\ NoDup (map s_id txs) /\ history true txs /\ audit true txs = Ok st /\ keyed S SP txs e el P
    /\ at_id txs (mx_id m) (XMix m) /\ mx_election m = e /\ mixed_in S P txs m bs
    /\ e2e_tally straight (ms_store st) e = Ok t /\ ~ no_more bs t.
Proof.
  destruct counted_twice as (m & el & st & H0 & H1 & H2 & H3 & H4 & H5 & H6 & H7).
  exists ToyE, ToyET, Fq, Gq, toy_scheme, toy_proofs, twice, st, e3, el, P3, m, [yes3; no3]. eexists.
  split; [exact e_reencrypting|]. repeat (split; [eassumption|]). intros [X _].
  destruct (X (sv (lit "no")) 2%N (or_introl eq_refl)) as (k & Ck & Le). apply chosen_count in Ck. rewrite Ck in Le. vm_compute in Le. apply Le. reflexivity.
Qed.

Print Assumptions C88_no_mixnet_partial.
Print Assumptions C88_one_mix_partial.
Print Assumptions C88_audited_partial.
Print Assumptions C88_audited_mix_partial.
Print Assumptions C88_counted_twice_refuted.
