(** * ThresholdFacts: a ceremony of honest trustees, step by step. *)
From Verif Require Import Base BaseFacts Utf8 Cbor Crypto Ident Types ValidateFacts Trustee Props_Keys Lagrange SpecThreshold.
From Coq Require Import ZifyBool ZifyNat ZifyN.
Open Scope list_scope.

Lemma byte_eqb_spec a b : reflect (a = b) (Byte.eqb a b).
Proof. apply iff_reflect. split; [intros ->; apply Byte.byte_dec_lb; reflexivity|apply Byte.byte_dec_bl]. Qed.
Lemma u8v_inj a b : u8v a = u8v b -> a = b.
Proof. unfold u8v. intros H. rewrite <- (Byte.of_to_N a), <- (Byte.of_to_N b) || idtac. pose proof (Byte.of_to_N a). pose proof (Byte.of_to_N b). congruence. Qed.
Lemma u8v_small a : (u8v a < 256)%N.
Proof. unfold u8v. pose proof (Byte.to_N_bounded a). lia. Qed.
Lemma in_imap (m : imap Byte.eqb bytes) i es : In (i, es) (sv m) -> lookup m i = Some es.
Proof.
  unfold lookup. pose proof (s_ok m) as N. destruct m as [l ok]. cbn [sv s_ok] in *. clear ok. revert N.
  induction l as [|[j v] l IH]; intros N I; [destruct I|]. cbn [nodup_keys] in N. apply andb_true_iff in N as [N1 N2].
  cbn [find fst]. destruct (byte_eqb_spec j i) as [->|Ne].
  - destruct I as [I|I]; [injection I as ->; reflexivity|]. exfalso. clear -N1 I. apply negb_true_iff in N1.
    assert (X : mem_key Byte.eqb i (map fst l) = true); [|congruence].
    induction l as [|[a b] l IH]; [destruct I|]. cbn [map fst mem_key] in *. destruct I as [I|I].
    + injection I as -> ->. rewrite (Byte.byte_dec_lb eq_refl). reflexivity.
    + destruct (Byte.eqb i a); [reflexivity|]. apply IH; [exact N1|exact I].
  - destruct I as [I|I]; [congruence|]. apply IH; assumption.
Qed.
Lemma nodup_map_inv {A B} (f : A -> B) l : NoDup (map f l) -> NoDup l.
Proof.
  induction l as [|a l IH]; cbn [map]; intros H; [constructor|]. inversion H as [|? ? N H']. constructor; [|auto].
  intros I. apply N. apply in_map, I.
Qed.
Lemma nodup_map_eq {A B} (f : A -> B) l a b : NoDup (map f l) -> In a l -> In b l -> f a = f b -> a = b.
Proof.
  induction l as [|c l IH]; cbn [map]; intros H Ia Ib E; [destruct Ia|]. inversion H as [|? ? N H'].
  destruct Ia as [<-|Ia], Ib as [<-|Ib]; [reflexivity| | |auto]; exfalso; apply N; [rewrite E|rewrite <- E]; apply in_map; assumption.
Qed.

Section Facts.
  Context {C : Crypto} {TC : TCrypto} {K : Fld} {M : Mdl} (S : threshold_scheme K M).
  Context (DH : dh_agrees) (Op : gcm_opens) (Sc : scalar_faithful).
  Context (T : people) (k : byte) (e : Identifier) (CE : ceremony T k).
  Add Field KF : f_field.

  Let n := N.of_nat (List.length T).
  Let cs := all_commitments T e.
  Let keys := all_keys T e.
  (** the polynomial of a trustee *)
  Definition poly (p : Trustee * ed_secret) : list F := v_poly (ts_view S (generator (fst p) (snd p) e)).

  Lemma gen_view p : In p T ->
    ts_view S (generator (fst p) (snd p) e) = mk_view (u8v (tr_index (fst p))) (u8v k) n (poly p) [] []
    /\ List.length (poly p) = N.to_nat (u8v k).
  Proof.
    intros I. unfold poly, generator. rewrite (ce_number _ _ CE p I), (ce_threshold _ _ CE p I). fold n.
    rewrite ts_new; [|apply (ce_quorum _ _ CE)|apply (ce_range _ _ CE p I)]. cbn [v_poly]. split; [reflexivity|]. apply ts_poly_length.
  Qed.
  Lemma com_of p : ts_com S (keygen_commitment (fst p) (snd p) e) = map (fun a => smul a (ts_base S)) (poly p).
  Proof. apply ts_commitment. Qed.

  Definition ncs (P : people) : list (N * KeygenCommitment) :=
    map (fun p => (u8v (tr_index (fst p)), keygen_commitment (fst p) (snd p) e)) P.
  Lemma in_ncs i P : In i (map fst (ncs P)) -> exists p, In p P /\ i = u8v (tr_index (fst p)).
  Proof. unfold ncs. rewrite map_map. intros H. apply in_map_iff in H as (p & E & I). cbn [fst] in E. eauto. Qed.

  (** all commitments are received *)
  Lemma receive_all {E} P : forall Q g v, Q ++ P = T -> ts_view S g = v ->
    v_threshold v = u8v k -> v_number v = n -> v_coms v = ncs Q ->
    exists g', @receive_commitments C TC E g (all_commitments P e) = Ok g'
      /\ ts_view S g' = mk_view (v_index v) (u8v k) n (v_poly v) (ncs T) (v_shares v).
  Proof.
    induction P as [|p P IH]; intros Q g v ET Ev Vt Vn Vc; cbn [all_commitments map receive_commitments].
    - exists g. split; [reflexivity|]. rewrite app_nil_r in ET. subst Q. rewrite Ev. destruct v. cbn in *. congruence.
    - assert (I : In p T) by (rewrite <- ET; apply in_elt).
      destruct (ts_receive_commitment S g (u8v (tr_index (fst p))) (keygen_commitment (fst p) (snd p) e)) as (g' & R & V').
      + rewrite Ev, Vn. apply (ce_range _ _ CE p I).
      + rewrite Ev, Vt, com_of, map_length. destruct (gen_view p I) as [_ L]. rewrite L. lia.
      + rewrite Ev, Vc. intros X. apply in_ncs in X as (q & Iq & Eq). apply u8v_inj in Eq.
        pose proof (ce_distinct _ _ CE) as N. rewrite <- ET, map_app in N. cbn [map] in N. apply NoDup_remove_2 in N.
        apply N. apply in_or_app. left. rewrite Eq. apply in_map_iff. exists q. auto.
      + rewrite R. cbn [or_panic bind]. rewrite Ev in V'.
        destruct (IH (Q ++ [p]) g' _ ltac:(rewrite <- app_assoc; exact ET) V') as (g'' & R' & V''); cbn [v_threshold v_number v_coms]; auto.
        { unfold ncs. rewrite map_app, Vc. reflexivity. }
        exists g''. split; [exact R'|exact V''].
  Qed.

  (** the generator of [p] after all commitments *)
  Definition ready (p : Trustee * ed_secret) (g : tgen) : Prop :=
    ts_view S g = mk_view (u8v (tr_index (fst p))) (u8v k) n (poly p) (ncs T) [].
  Lemma ready_ex {E} p : In p T -> exists g, @receive_commitments C TC E (generator (fst p) (snd p) e) cs = Ok g /\ ready p g.
  Proof.
    intros I. destruct (gen_view p I) as [V _].
    destruct (@receive_all E T [] (generator (fst p) (snd p) e) _ eq_refl V) as (g & R & V'); [reflexivity..|].
    exists g. split; [exact R|exact V'].
  Qed.
  Lemma ncs_length : N.of_nat (List.length (ncs T)) = n.
  Proof. unfold ncs. rewrite map_length. reflexivity. Qed.
  Lemma ready_share p g q : ready p g -> In q T ->
    exists s, tg_polynomial_share g (u8v (tr_index (fst q))) = Some s
      /\ ts_val S s = eval (poly p) (ts_pt S (u8v (tr_index (fst q)))).
  Proof.
    intros R I. pose proof (ts_polynomial_share S g (u8v (tr_index (fst q)))) as H. rewrite R in H. cbn [v_number v_coms v_poly] in H.
    apply H; [apply (ce_range _ _ CE q I)|apply ncs_length].
  Qed.

  Lemma sender_key_all q : In q T -> sender_key keys (tr_index (fst q)) = Some (x25519_public (snd q) e).
  Proof.
    intros I. unfold sender_key, keys, all_keys. rewrite <- map_rev.
    assert (N : NoDup (map (fun p => tr_index (fst p)) (rev T))).
    { rewrite map_rev. apply NoDup_rev, (ce_distinct _ _ CE). }
    apply in_rev in I. revert N I. generalize (rev T) as P. induction P as [|p P IH]; intros N I; [destruct I|].
    cbn [map find fst]. destruct (byte_eqb_spec (tr_index (fst p)) (tr_index (fst q))) as [E|Ne].
    - assert (p = q) by (eapply nodup_map_eq; [exact N|left; reflexivity|exact I|exact E]). subst. reflexivity.
    - destruct I as [I|I]; [congruence|]. cbn [map] in N. inversion N. apply IH; assumption.
  Qed.

  Lemma shares_from_ok {E} p g nonces P : ready p g -> incl P T -> forall m i,
    exists m', @shares_from C TC E i nonces g (snd p) e (all_keys P e) m = Ok m'.
  Proof.
    intros R. induction P as [|q P IH]; intros Inc m i; cbn [all_keys map shares_from]; [eauto|].
    destruct (ready_share p g q R (Inc q (or_introl eq_refl))) as (s & Es & _). rewrite Es. cbn [or_panic bind].
    apply IH. intros x X. apply Inc. right. exact X.
  Qed.
  Lemma generate_ok {E} p nonces : In p T -> exists m, @generate_shares C TC E (fst p) nonces (snd p) keys e cs = Ok m.
  Proof.
    intros I. destruct (@ready_ex E p I) as (g & R & Rd). unfold generate_shares. rewrite R. cbn [bind].
    apply (shares_from_ok p g nonces T Rd (incl_refl T)).
  Qed.
  (** the share of [p] for [q] opens to the value of the polynomial of [p] at [q] *)
  Lemma share_opens {E} p q nonces m : In p T -> In q T ->
    @generate_shares C TC E (fst p) nonces (snd p) keys e cs = Ok m ->
    exists s es, lookup m (tr_index (fst q)) = Some es
      /\ es_decrypt es (shared_secret (snd q) e (x25519_public (snd p) e)) = Ok s
      /\ ts_val S s = eval (poly p) (ts_pt S (u8v (tr_index (fst q)))).
  Proof.
    intros I J H. destruct (@ready_ex E p I) as (g & R & Rd). unfold generate_shares in H. rewrite R in H. cbn [bind] in H.
    pose proof (shares_from_spec g (snd p) e nonces keys _ _ _ H (tr_index (fst q))) as X. rewrite (sender_key_all q J) in X.
    destruct X as (s & nonce & X1 & X2). destruct (ready_share p g q Rd J) as (s' & X3 & X4). rewrite X1 in X3. injection X3 as <-.
    exists s. eexists. split; [exact X2|]. split; [apply (C50_share_arrives DH Op Sc)|exact X4].
  Qed.

  Context (published : Trustee * ed_secret -> list (byte * bytes)).
  Context (PU : honest_shares T e published).

  (** the list of opened shares of [q] *)
  Lemma open_all q P : In q T -> incl P T -> forall l,
    Forall2 (fun p x => fst x = tr_index (fst p) /\ In (tr_index (fst q), snd x) (published p)) P l ->
    exists opened, open_shares (snd q) l keys e = Ok opened
      /\ Forall2 (fun p y => fst y = tr_index (fst p)
           /\ ts_val S (snd y) = eval (poly p) (ts_pt S (u8v (tr_index (fst q))))) P opened.
  Proof.
    intros J. induction P as [|p P IH]; intros Inc l F; inversion F as [|? [j es] ? l' [A B] F']; subst; [exists []; split; [reflexivity|constructor]|].
    cbn [fst snd] in A, B. subst j. assert (I : In p T) by (apply Inc; left; reflexivity).
    destruct (PU p I) as (nonces & m & G' & Pu). rewrite Pu in B. apply in_imap in B.
    destruct (share_opens p q nonces m I J G') as (s & es' & L & D & V). rewrite B in L. injection L as <-.
    destruct (IH (fun x X => Inc x (or_intror X)) l' F') as (opened & O & Fo).
    exists ((tr_index (fst p), s) :: opened). split; [|constructor; [cbn [fst snd]; auto|exact Fo]].
    unfold open_shares in *. cbn [map_res fst snd]. rewrite (sender_key_all p I). cbn [ok_or bind].
    match goal with |- context [es_decrypt ?a ?b] => replace (es_decrypt a b) with (@Ok TrError scalar s) by (symmetry; exact D) end.
    cbn [bind]. rewrite O. reflexivity.
  Qed.

  Lemma ncs_nodup : NoDup (map fst (ncs T)).
  Proof.
    unfold ncs. rewrite map_map. cbn [fst]. rewrite <- (map_map (fun p => tr_index (fst p)) u8v). pose proof (ce_distinct _ _ CE) as N. clear -N. revert N.
    generalize (map (fun p : Trustee * ed_secret => tr_index (fst p)) T) as b.
    induction b as [|a b IH]; intros N; cbn [map]; [constructor|]. inversion N as [|? ? Na Nb]. constructor; [|auto].
    intros X. apply in_map_iff in X as (a' & E & X). apply u8v_inj in E. congruence.
  Qed.
  (** all shares are received *)
  Lemma receive_all_shares {E} q P : forall Q g opened done, Q ++ P = T ->
    ts_view S g = mk_view (u8v (tr_index (fst q))) (u8v k) n (poly q) (ncs T) done ->
    map fst done = map (fun p => u8v (tr_index (fst p))) Q ->
    Forall2 (fun p y => fst y = tr_index (fst p) /\ ts_val S (snd y) = eval (poly p) (ts_pt S (u8v (tr_index (fst q))))) P opened ->
    exists g' more, @receive_shares C TC E g opened = Ok g'
      /\ ts_view S g' = mk_view (u8v (tr_index (fst q))) (u8v k) n (poly q) (ncs T) (done ++ more)
      /\ List.length more = List.length P
      /\ fsum (fun x => ts_val S (snd x)) more = fsum (fun p => eval (poly p) (ts_pt S (u8v (tr_index (fst q))))) P.
  Proof.
    induction P as [|p P IH]; intros Q g opened dn ET V D F; destruct opened as [|[i s] opened']; try (inversion F; fail); cbn [receive_shares].
    - exists g, []. rewrite (app_nil_r dn). split; [reflexivity|]. split; [exact V|]. split; reflexivity.
    - assert (X : tr_index (fst p) = i /\ ts_val S s = eval (poly p) (ts_pt S (u8v (tr_index (fst q))))
               /\ Forall2 (fun p y => fst y = tr_index (fst p) /\ ts_val S (snd y) = eval (poly p) (ts_pt S (u8v (tr_index (fst q))))) P opened').
      { clear -F. inversion F as [|? ? ? ? [A B] F']. auto. }
      destruct X as (A & B & F'). subst i. assert (I : In p T) by (rewrite <- ET; apply in_elt).
      destruct (ts_receive_share S g (u8v (tr_index (fst p))) s (keygen_commitment (fst p) (snd p) e)) as (g' & R & V').
      + rewrite V. apply ncs_nodup.
      + rewrite V. apply ncs_length.
      + rewrite V. cbn [v_coms]. unfold ncs. apply in_map_iff. exists p. auto.
      + rewrite V. cbn [v_shares]. rewrite D. intros X. apply in_map_iff in X as (p' & Ep & Ip). apply u8v_inj in Ep.
        pose proof (ce_distinct _ _ CE) as N. rewrite <- ET, map_app in N. cbn [map] in N. apply NoDup_remove_2 in N.
        apply N. apply in_or_app. left. rewrite <- Ep. apply in_map_iff. exists p'. auto.
      + rewrite V. cbn [v_index]. rewrite com_of, geval_map, B. reflexivity.
      + rewrite R. cbn [or_panic bind]. rewrite V in V'. cbn [v_index v_threshold v_number v_poly v_coms v_shares] in V'.
        destruct (IH (Q ++ [p]) g' opened' (dn ++ [(u8v (tr_index (fst p)), s)])) as (g'' & more & R' & V'' & Ln & Su); auto.
        { rewrite <- app_assoc. exact ET. }
        { rewrite !map_app, D. reflexivity. }
        exists g'', ((u8v (tr_index (fst p)), s) :: more). split; [exact R'|]. split; [rewrite V'', <- app_assoc; reflexivity|].
        split; [cbn [List.length]; congruence|]. cbn [fsum snd]. rewrite B, Su. reflexivity.
  Qed.

  (** the polynomial of all trustees together, and the public key *)
  Definition joint : list F := psum poly T.
  Definition joint_key : G := smul (eval joint f0) (ts_base S).
  Lemma joint_length : List.length joint <= N.to_nat (u8v k).
  Proof. apply psum_length. intros p I. destruct (gen_view p I) as [_ L]. lia. Qed.
  Lemma key_sum : gsum (fun x => hd g0 (ts_com S (snd x))) (ncs T) = joint_key.
  Proof.
    unfold joint_key, joint. rewrite psum_eval, <- gsum_smul.
    unfold ncs. assert (X : incl T T) by apply incl_refl. revert X. generalize T at 1 3 4 as P.
    induction P as [|p P IH]; intros Inc; cbn [map gsum snd]; [reflexivity|].
    rewrite IH by (intros x X; apply Inc; right; exact X). f_equal. rewrite com_of.
    destruct (gen_view p (Inc p (or_introl eq_refl))) as [_ L]. pose proof (ce_quorum _ _ CE).
    destruct (poly p) as [|a q]; [cbn in L; lia|]. cbn [map hd eval]. f_equal. ring.
  Qed.

  Lemma party_ok q l : In q T -> sent_to T published (tr_index (fst q)) l ->
    exists pa, party (fst q) (snd q) keys cs l e = Ok pa
      /\ ts_secret S pa = eval joint (ts_pt S (u8v (tr_index (fst q)))) /\ tp_pubkey pa = ts_key S joint_key.
  Proof.
    intros J F. destruct (open_all q T J (incl_refl T) l F) as (opened & O & Fo).
    destruct (@ready_ex TrError q J) as (g & R & Rd).
    destruct (@receive_all_shares TrError q T [] g opened [] eq_refl Rd eq_refl Fo) as (g' & more & R' & V & Ln & Su).
    cbn [app] in V.
    destruct (ts_finish S g') as (pa & Fi & Se & Pk).
    - rewrite V. apply ncs_length.
    - rewrite V. cbn [v_shares v_number]. rewrite Ln. reflexivity.
    - exists pa. split; [unfold party, generate_party; rewrite O; cbn [bind]; rewrite R; cbn [bind]; rewrite R'; cbn [bind]; rewrite Fi; reflexivity|].
      rewrite V in Se, Pk. cbn [v_shares v_coms] in Se, Pk. split.
      + rewrite Se, Su. unfold joint. rewrite psum_eval. reflexivity.
      + rewrite Pk, key_sum. reflexivity.
  Qed.

  (** the shares of enough different indices, interpolated at zero, give the joint secret times the point *)
  Lemma combine_points (l : list (byte * PubkeyProof * DecryptShare)) c :
    NoDup (map (fun x => fst (fst x)) l) -> (u8v k <= N.of_nat (List.length l))%N ->
    (forall x, In x l -> ts_point S (snd x) = smul (eval joint (ts_pt S (u8v (fst (fst x))))) c) ->
    gsum (fun x => smul (basis (ts_pt S) f0 (map (fun y => u8v (fst (fst y))) l) (u8v (fst (fst x)))) (ts_point S (snd x))) l
    = smul (eval joint f0) c.
  Proof.
    intros N L H. set (I := map (fun y => u8v (fst (fst y))) l).
    transitivity (gsum (fun x : byte * PubkeyProof * DecryptShare => smul (fmul (basis (ts_pt S) f0 I (u8v (fst (fst x))))
                                         (eval joint (ts_pt S (u8v (fst (fst x)))))) c) l).
    { apply gsum_ext. intros x X. rewrite (H x X), <- s_mul. reflexivity. }
    rewrite gsum_smul. f_equal.
    assert (NI : NoDup I).
    { unfold I. rewrite <- map_map with (g := u8v). clear -N. revert N. generalize (map (fun x : byte * PubkeyProof * DecryptShare => fst (fst x)) l) as b.
      induction b as [|a b IH]; intros N; cbn [map]; [constructor|]. inversion N as [|? ? Na Nb]. constructor; [|auto].
      intros X. apply in_map_iff in X as (a' & E & X). apply u8v_inj in E. congruence. }
    rewrite <- (interpolation (x := ts_pt S) f0 (I := I) joint); auto.
    - unfold I. clear. generalize (basis (ts_pt S) f0 (map (fun y : byte * PubkeyProof * DecryptShare => u8v (fst (fst y))) l)) as b. intros b.
      induction l as [|x l IH]; cbn [map fsum]; [reflexivity|]. rewrite IH. reflexivity.
    - pose proof (ce_quorum _ _ CE). unfold I. destruct l; [cbn in L; lia|discriminate].
    - intros i j Ii Ij Ne. unfold I in Ii, Ij. apply in_map_iff in Ii as (a & <- & _), Ij as (b & <- & _).
      apply ts_pt_sep; auto using u8v_small.
    - unfold I. rewrite map_length. pose proof joint_length. lia.
  Qed.
End Facts.
