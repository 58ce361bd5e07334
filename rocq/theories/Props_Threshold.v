(** * Props_Threshold: C51 (distributed key generation and threshold decryption). *)
From Verif Require Import Base BaseFacts Utf8 Cbor Ident Crypto Types Serde Prost SpecProst ProstFacts Validate ValidateFacts SpecValid ValidFacts ValidFacts2
  ValidFacts3 Encrypt Trustee Props_Keys Props_Prost Lagrange SpecThreshold ThresholdFacts.
From Coq Require Import Ring_theory Field_theory Field ZifyBool ZifyNat ZifyN Sorting.Permutation.
Open Scope list_scope.

Lemma of_nat_le a b : a <= b -> (N.of_nat a <= N.of_nat b)%N.
Proof. lia. Qed.
Lemma forall2_len {A B} (R : A -> B -> Prop) l l' : Forall2 R l l' -> List.length l = List.length l'.
Proof. induction 1; cbn; congruence. Qed.
Lemma forall2_nth {A B} (R : A -> B -> Prop) l l' : Forall2 R l l' ->
  forall i a b, nth_error l i = Some a -> nth_error l' i = Some b -> R a b.
Proof.
  induction 1 as [|u v l l' H F IH]; intros [|i] a b Ha Hb; cbn in *; try discriminate; [congruence|eauto].
Qed.
Lemma forall2_nth_ex {A B} (R : A -> B -> Prop) l l' : Forall2 R l l' ->
  forall i a, nth_error l i = Some a -> exists b, nth_error l' i = Some b /\ R a b.
Proof.
  induction 1 as [|u v l l' H F IH]; intros [|i] a Ha; cbn in *; try discriminate; [injection Ha as <-; eauto|eauto].
Qed.

Section Props.
  Context {C : Crypto} {TC : TCrypto} {K : Fld} {M : Mdl} (S : threshold_scheme K M).
  Context (DH : dh_agrees) (Op : gcm_opens) (Sc : scalar_faithful).

  (** no step of an honest ceremony crashes: every trustee obtains a share for every trustee *)
  Theorem C51_shares_made : forall T k e, ceremony T k -> forall E p nonces, In p T ->
    exists m, @generate_shares C TC E (fst p) nonces (snd p) (all_keys T e) e (all_commitments T e) = Ok m
      /\ forall q, In q T -> exists es, In (tr_index (fst q), es) (sv m).
  Proof.
    intros T k e CE E p nonces I. destruct (@generate_ok _ _ _ _ S T k e CE E p nonces I) as (m & G). exists m. split; [exact G|].
    intros q J. destruct (share_opens S DH Op Sc T k e CE p q nonces m I J G) as (s & es & L & _). exists es.
    unfold lookup in L. destruct (find _ _) as [[i v]|] eqn:F; [|discriminate]. cbn in L. injection L as ->.
    apply find_some in F as [F1 F2]. cbn [fst] in F2. apply Byte.byte_dec_bl in F2. subst. exact F1.
  Qed.

  Lemma sent_unique T e published j l l' : honest_shares T e published -> sent_to T published j l -> sent_to T published j l' -> l = l'.
  Proof.
    intros H. unfold sent_to. assert (X : incl T T) by apply incl_refl. revert X l l'. generalize T at 1 3 4 as P.
    induction P as [|p P IH]; [intros Inc l l' F F'; inversion F; inversion F'; reflexivity|]. intros Inc l l' F F'.
    inversion F as [|? [i v] ? l1 [A B] F1]; inversion F' as [|? [i' v'] ? l1' [A' B'] F1']; subst.
    cbn [fst snd] in *. destruct (H p (Inc p (or_introl eq_refl))) as (nonces & m & _ & Pu). rewrite Pu in B, B'.
    apply in_imap in B, B'. assert (v = v') by congruence. subst. f_equal. apply IH; auto. intros x X. apply Inc. right. exact X.
  Qed.

  Lemma quorum_decrypts : forall T k e published, ceremony T k -> honest_shares T e published ->
      (forall q l, In q T -> sent_to T published (tr_index (fst q)) l ->
         exists pf, generate_public_key (fst q) (snd q) (all_keys T e) (all_commitments T e) l e = Ok (ts_key S (joint_key S T e), pf))
      /\ (forall el row vote pks parts,
         el_threshold el = k -> Permutation (map tr_index (el_trustees el)) (map (fun p => tr_index (fst p)) T) ->
         honest_keys T e published pks -> honest_partials T k e published row parts ->
         Forall fits vote -> Forall2 (fun s ct => encrypts S (joint_key S T e) (sel_encode s) ct) vote row ->
         decrypt_vote row (el_threshold el) (el_trustees el) pks parts = Ok vote).
  Proof.
    intros T k e published CE HS. split.
    - intros q l I F. destruct (party_ok S DH Op Sc T k e CE published HS q l I F) as (pa & P & _ & Pk).
      exists (tp_proof pa). unfold generate_public_key. rewrite P. cbn [bind]. rewrite Pk. reflexivity.
    - intros el row vote pks parts Ek Et [K1 K2] [(Q & Q1 & Q2 & Q3) HP] Fi En.
      apply decrypt_vote_iff. split; [exact (forall2_len _ _ _ En)|].
      intros i ct s Hc Hs.
      assert (Enc : encrypts S (joint_key S T e) (sel_encode s) ct) by (eapply (forall2_nth _ _ _ En); eassumption).
      assert (Fs : fits s) by (rewrite Forall_forall in Fi; apply Fi; eapply nth_error_In, Hs).
      (* the shares that decrypt_vote collects *)
      assert (Sh : forall trs, incl (map tr_index trs) (map (fun p => tr_index (fst p)) T) ->
        exists l, shares_for i pks parts trs l
          /\ map (fun x => fst (fst x)) l = filter (fun j => existsb (Byte.eqb j) (map pd_trustee parts)) (map tr_index trs)
          /\ forall x, In x l -> exists q pa, In q T /\ fst (fst x) = tr_index (fst q)
               /\ ts_secret S pa = eval (joint S T e) (ts_pt S (u8v (tr_index (fst q))))
               /\ snd (fst x) = tp_proof pa /\ exists rnd, snd x = tp_decrypt_share pa ct rnd).
      { induction trs as [|tr trs IH]; intros Inc; [exists []; split; [constructor|split; [reflexivity|intros x []]]|].
        destruct IH as (l & L1 & L2 & L3); [intros x X; apply Inc; right; exact X|].
        cbn [map filter]. destruct (existsb (Byte.eqb (tr_index tr)) (map pd_trustee parts)) eqn:X.
        - assert (Ia : In (tr_index tr) (map (fun p => tr_index (fst p)) T)) by (apply Inc; left; reflexivity).
          apply in_map_iff in Ia as (q & Eq & Iq).
          destruct (last_by pd_trustee parts (tr_index tr)) as [x|] eqn:Lx.
          2:{ exfalso. apply existsb_exists in X as (b & B1 & B2). apply Byte.byte_dec_bl in B2. subst b.
              apply in_map_iff in B1 as (x & B1 & B2). rewrite last_by_none in Lx. apply (Lx x B2). exact B1. }
          apply last_by_some in Lx. pose proof Lx as Lx'. destruct Lx as (x1 & x2 & Ex & Ey & _).
          assert (Ix : In x parts) by (apply in_rev; rewrite Ex; apply in_elt).
          destruct (HP x Ix) as (q' & lq & Iq' & Eq' & Sq & Fq).
          assert (q' = q).
          { eapply nodup_map_eq; [apply (ce_distinct _ _ CE)|exact Iq'|exact Iq|]. cbn beta. congruence. }
          subst q'.
          destruct (K1 q Iq) as (y0 & Iy0 & Ey0). 
          destruct (last_by kp_trustee pks (tr_index tr)) as [y|] eqn:Ly.
          2:{ exfalso. rewrite last_by_none in Ly. apply (Ly y0 Iy0). congruence. }
          apply last_by_some in Ly. pose proof Ly as Ly'. destruct Ly as (y1 & y2 & Ey1 & Ey2 & _).
          assert (Iy : In y pks) by (apply in_rev; rewrite Ey1; apply in_elt).
          destruct (K2 q y Iq Iy) as (lq' & Sq' & Gy); [congruence|].
          pose proof (sent_unique _ _ _ _ _ _ HS Sq Sq') as <-.
          destruct (party_ok S DH Op Sc T k e CE published HS q lq Iq Sq) as (pa & P & Se & Pk).
          unfold generate_public_key in Gy. rewrite P in Gy. cbn [bind] in Gy. injection Gy as _ Gp.
          destruct (forall2_nth_ex _ _ _ Fq i ct Hc) as (sh & Hsh & rnd & D).
          unfold partial_decrypt in D. rewrite P in D. cbn [bind] in D. injection D as D.
          exists ((tr_index tr, kp_proof y, sh) :: l). split; [|split].
          + apply sf_take with x; assumption.
          + cbn [map fst]. rewrite L2. reflexivity.
          + intros z [<-|Z]; [|apply L3, Z]. exists q, pa. cbn [fst snd]. split; [exact Iq|]. split; [congruence|]. split; [exact Se|].
            split; [congruence|]. exists rnd. congruence.
        - exists l. split; [|split; [exact L2|exact L3]]. apply sf_skip; [|exact L1]. left.
          apply last_by_none. destruct (last_by pd_trustee parts (tr_index tr)) as [x|] eqn:Lx; [|reflexivity].
          exfalso. apply last_by_some in Lx as (x1 & x2 & Ex & Ey & _).
          assert (Z : existsb (Byte.eqb (tr_index tr)) (map pd_trustee parts) = true); [|congruence].
          apply existsb_exists. exists (pd_trustee x). split; [apply in_map, in_rev; rewrite Ex; apply in_elt|]. apply Byte.byte_dec_lb. congruence. }
      destruct (Sh (el_trustees el)) as (l & L1 & L2 & L3); [intros j; apply (Permutation_in j Et)|].
      exists l, (sel_encode s). split; [exact L1|]. split; [|apply C49_roundtrip, Fs].
      pose proof (ce_quorum _ _ CE) as Qk.
      assert (Nl : NoDup (map (fun x => fst (fst x)) l)).
      { rewrite L2. apply NoDup_filter. apply (Permutation_NoDup (Permutation_sym Et)), (ce_distinct _ _ CE). }
      destruct (ts_combine S (el_threshold el) ct l) as (l' & I' & N' & Q' & D).
      + rewrite Ek. lia.
      + rewrite Ek. apply (N.le_trans _ _ _ Q3). apply of_nat_le.
        transitivity (List.length (map (fun x => fst (fst x)) l)); [|rewrite map_length; apply Nat.le_refl].
        apply NoDup_incl_length; [exact Q1|]. intros j J. rewrite L2. apply filter_In.
        assert (J' : In j (map pd_trustee parts)) by (apply Q2, J). split.
        * apply (Permutation_in j (Permutation_sym Et)). apply in_map_iff in J' as (x & <- & Ix). destruct (HP x Ix) as (q & lq & Iq & -> & _). apply in_map_iff. exists q. auto.
        * apply existsb_exists. exists j. split; [exact J'|]. apply Byte.byte_dec_lb. reflexivity.
      + exact Nl.
      + intros Z. apply in_map_iff in Z as (x & Z1 & Z2). destruct (L3 x Z2) as (q & pa & Iq & Eq & _).
        pose proof (ce_range _ _ CE q Iq) as R. assert (Z3 : tr_index (fst q) = x00) by (rewrite <- Eq; exact Z1). rewrite Z3 in R. change (u8v x00) with 0%N in R. lia.
      + intros j pf sh Z. destruct (L3 _ Z) as (q & pa & _ & _ & _ & Z1 & rnd & Z2). cbn [fst snd] in Z1, Z2. subst pf sh. apply (ts_share_verifies S).
      + rewrite D. destruct Enc as (r & R1 & R2).
        match goal with |- ts_open _ _ ?g = _ => assert (Y : g = smul (eval (joint S T e) f0) (ts_c1 S ct)) end.
        { apply (combine_points S T k e CE l' (ts_c1 S ct)).
          * exact N'.
          * rewrite Ek in Q'. exact Q'.
          * intros x X. destruct (L3 x (I' x X)) as (q & pa & Iq & Eq & Se & _ & rnd & Z2).
            transitivity (ts_point S (tp_decrypt_share pa ct rnd)); [f_equal; exact Z2|]. rewrite ts_decrypt_share, Se, <- Eq. reflexivity. }
        rewrite Y, R1, <- s_mul. unfold joint_key in R2. rewrite <- s_mul in R2.
        rewrite <- R2. f_equal. f_equal. apply (Rmul_comm (F_R f_field)).
  Qed.

  (** all trustees obtain the same public key, and it is the key of which any [k] of them hold the secret *)
  Theorem C51_quorum_decrypts : forall T k e published, ceremony T k -> honest_shares T e published ->
    exists A,
      (forall q l, In q T -> sent_to T published (tr_index (fst q)) l ->
         exists pf, generate_public_key (fst q) (snd q) (all_keys T e) (all_commitments T e) l e = Ok (ts_key S A, pf))
      /\ (forall el row vote pks parts,
         el_threshold el = k -> Permutation (map tr_index (el_trustees el)) (map (fun p => tr_index (fst p)) T) ->
         honest_keys T e published pks -> honest_partials T k e published row parts ->
         Forall fits vote -> Forall2 (fun s ct => encrypts S A (sel_encode s) ct) vote row ->
         decrypt_vote row (el_threshold el) (el_trustees el) pks parts = Ok vote).
  Proof. intros T k e published CE HS. exists (joint_key S T e). exact (quorum_decrypts T k e published CE HS). Qed.

  Lemma encrypt_row {R} (eg_encrypt : EGPublicKey -> R -> bytes -> Ciphertext * R) A : encrypting S eg_encrypt ->
    forall vote rng, Forall2 (fun s ct => encrypts S A (sel_encode s) ct) vote (fst (encrypt_vote eg_encrypt (ts_key S A) vote rng)).
  Proof.
    intros L. induction vote as [|s vote IH]; intros rng; [constructor|]. cbn [encrypt_vote].
    pose proof (L A rng (sel_encode s)) as X. destruct (eg_encrypt (ts_key S A) rng (sel_encode s)) as [ct rng'].
    specialize (IH rng'). destruct (encrypt_vote eg_encrypt (ts_key S A) vote rng') as [cts rng'']. cbn [fst] in *. constructor; assumption.
  Qed.
  Lemma forall2_perm {X Y} (R : X -> Y -> Prop) l m : Forall2 R l m -> forall m', Permutation m m' -> exists l', Permutation l l' /\ Forall2 R l' m'.
  Proof.
    intros F m' P. revert l F. induction P as [|y m m' P IH|y z m|m m' m'' P1 IH1 P2 IH2]; intros l F.
    - inversion F. exists []. auto.
    - inversion F as [|x ? l1 ? R1 F1]. subst. destruct (IH _ F1) as (l' & P' & F'). exists (x :: l'). auto.
    - inversion F as [|x ? l1 ? R1 F1]. subst. inversion F1 as [|x' ? l2 ? R2 F2]. subst. exists (x' :: x :: l2). split; [apply perm_swap|auto].
    - destruct (IH1 _ F) as (l' & P' & F'). destruct (IH2 _ F') as (l'' & P'' & F''). exists l''. split; [eapply Permutation_trans; eassumption|exact F''].
  Qed.
  Lemma forall2_trans {X Y Z} (R : X -> Y -> Prop) (Q : Y -> Z -> Prop) (W : X -> Z -> Prop) :
    (forall a b c, R a b -> Q b c -> W a c) -> forall l m n, Forall2 R l m -> Forall2 Q m n -> Forall2 W l n.
  Proof. intros H l m n F. revert n. induction F; intros n' G; inversion G; subst; constructor; eauto. Qed.

  (** the whole election: the votes encrypted under the agreed key and mixed any number of times
      (by anyone, as long as the proofs are accepted) are decrypted by any quorum to the same votes
      in some order *)
  Theorem C51_election : forall T k e published R (eg_encrypt : EGPublicKey -> R -> bytes -> Ciphertext * R),
    encrypting S eg_encrypt -> reencrypting S -> ceremony T k -> honest_shares T e published ->
    forall q0 l0 key pf0, In q0 T -> sent_to T published (tr_index (fst q0)) l0 ->
    generate_public_key (fst q0) (snd q0) (all_keys T e) (all_commitments T e) l0 e = Ok (key, pf0) ->
    forall votes rngs rows, Forall (Forall fits) votes ->
    Forall2 (fun vr row => fst (encrypt_vote eg_encrypt key (fst vr) (snd vr)) = row) (combine votes rngs) rows ->
    List.length rngs = List.length votes ->
    forall outs, mixed key rows outs ->
    exists votes', Permutation votes votes'
      /\ Forall2 (fun vote row => forall el pks parts,
           el_threshold el = k -> Permutation (map tr_index (el_trustees el)) (map (fun p => tr_index (fst p)) T) ->
           honest_keys T e published pks -> honest_partials T k e published row parts ->
           decrypt_vote row (el_threshold el) (el_trustees el) pks parts = Ok vote) votes' outs.
  Proof.
    intros T k e published R eg L1 L2 CE HS q0 l0 key pf0 I0 S0 G0 votes rngs rows Fi En Lr outs Mx.
    destruct (C51_quorum_decrypts T k e published CE HS) as (A & A1 & A2).
    destruct (A1 q0 l0 I0 S0) as (pf & G0'). rewrite G0 in G0'. injection G0' as -> _.
    assert (X : exists votes', Permutation votes votes' /\ Forall2 (Forall2 (fun s ct => encrypts S A (sel_encode s) ct)) votes' outs).
    { induction Mx as [rows|rows ins outs seed n pf' Mx IH V].
      - exists votes. split; [reflexivity|]. clear -En Lr L1. revert rngs rows En Lr.
        induction votes as [|v votes IH]; intros [|r rngs] rows En Lr; try discriminate; inversion En; subst; constructor.
        + apply encrypt_row, L1.
        + eapply IH; [eassumption|]. cbn in Lr. lia.
      - destruct (IH En) as (v1 & P1 & F1). destruct (L2 _ _ _ _ _ _ V) as (ins' & P2 & F2).
        destruct (forall2_perm _ _ _ F1 _ P2) as (v2 & P3 & F3). exists v2. split; [eapply Permutation_trans; eassumption|].
        eapply forall2_trans; [|exact F3|exact F2]. intros a b c H1 H2. eapply forall2_trans; [|exact H1|exact H2].
        cbn beta. intros s x y H3 H4. apply H4, H3. }
    destruct X as (votes' & P & F). exists votes'. split; [exact P|].
    assert (Fi' : Forall (Forall fits) votes').
    { rewrite Forall_forall in *. intros v V. apply Fi. eapply Permutation_in; [symmetry; exact P|exact V]. }
    clear -F Fi' A2. induction F as [|v row vs os H F IH]; constructor; [|inversion Fi'; auto].
    intros el pks parts E1 E2 H1 H2. inversion Fi'. eapply A2; eauto.
  Qed.

  (** fewer than [k] of the values of a polynomial say nothing about the secret: every value of the
      secret is possible with the same shares *)
  Add Field KF : f_field.
  Fixpoint vanish (x : N -> F) (I : list N) : list F :=
    match I with [] => [f1] | i :: I' => padd (f0 :: vanish x I') (map (fmul (fopp (x i))) (vanish x I')) end.
  Lemma eval_scale c p z : eval (map (fmul c) p) z = fmul c (eval p z).
  Proof. induction p as [|a p IH]; cbn [map eval]; [ring|]. rewrite IH. ring. Qed.
  Lemma vanish_eval x I z : eval (vanish x I) z = fold_right (fun i a => fmul (fsub z (x i)) a) f1 I.
  Proof.
    induction I as [|i I IH]; cbn [vanish fold_right]; [cbn [eval]; ring|]. rewrite padd_eval, eval_scale, <- IH. cbn [eval]. ring.
  Qed.
  Lemma vanish_length x I : List.length (vanish x I) = Datatypes.S (List.length I).
  Proof. induction I as [|i I IH]; [reflexivity|]. cbn [vanish]. rewrite padd_length, map_length. cbn [List.length]. lia. Qed.
  Theorem C51_fewer_shares_hide : forall k p I s,
    List.length p = k -> List.length I < k -> NoDup I -> (forall i, In i I -> (1 <= i < 256)%N) ->
    exists p', List.length p' = k /\ eval p' f0 = s /\ forall i, In i I -> eval p' (ts_pt S i) = eval p (ts_pt S i).
  Proof.
    intros k p I s L LI N R.
    set (w := vanish (ts_pt S) I).
    assert (W0 : eval w f0 <> f0).
    { unfold w. rewrite vanish_eval. clear -R. revert R. induction I as [|i I IH]; intros R; cbn [fold_right].
      - apply (F_1_neq_0 f_field).
      - assert (A : fsub f0 (ts_pt S i) <> f0).
        { assert (Ri : (1 <= i < 256)%N) by (apply R; left; reflexivity).
          pose proof (ts_pt_sep S 0%N i ltac:(lia) ltac:(lia) ltac:(lia)) as X. rewrite (ts_pt_zero S) in X. exact X. }
        assert (B : fold_right (fun i a => fmul (fsub f0 (ts_pt S i)) a) f1 I <> f0) by (apply IH; intros j J; apply R; right; exact J).
        intros Z. apply B. transitivity (fmul (finv (fsub f0 (ts_pt S i))) (fmul (fsub f0 (ts_pt S i)) (fold_right (fun i a => fmul (fsub f0 (ts_pt S i)) a) f1 I))).
        + field. intros Y. apply A. transitivity (fopp (ts_pt S i)); [ring|exact Y].
        + rewrite Z. ring. }
    exists (padd p (map (fmul (fdiv (fsub s (eval p f0)) (eval w f0))) w)). split; [|split].
    - rewrite padd_length, map_length. unfold w. rewrite vanish_length. lia.
    - rewrite padd_eval, eval_scale. field. exact W0.
    - intros i Ii. rewrite padd_eval, eval_scale. assert (Z : eval w (ts_pt S i) = f0).
      { unfold w. rewrite vanish_eval. clear -Ii. induction I as [|j I IH]; [destruct Ii|]. cbn [fold_right]. destruct Ii as [->|Ii]; [ring|]. rewrite IH by exact Ii. ring. }
      rewrite Z. ring.
  Qed.
End Props.

(** ** a concrete case: three trustees, threshold two, over the instance of ToyE *)
From Verif Require Import Toy ToyT ToyE Scene.
From Coq Require Strings.String.
Import String.StringSyntax.
Section Case.
  Local Existing Instance ToyE.
  Local Existing Instance ToyET.
  Local Existing Instance Fq.
  Local Existing Instance Gq.
  Definition tt3 (b i : byte) : Trustee * ed_secret := (mk_trustee (any (key_of b)) i (u_of 8 3) x02, key_of b).
  Definition T3 : people := [tt3 x0b x02; tt3 x0a x01; tt3 x0c x03].
  Definition e3 : Identifier := EID.
  Lemma T3_in p : In p T3 -> p = tt3 x0b x02 \/ p = tt3 x0a x01 \/ p = tt3 x0c x03.
  Proof. intros [<-|[<-|[<-|[]]]]; auto. Qed.
  Example C51_ceremony : ceremony T3 x02.
  Proof.
    split.
    - change (NoDup [x02; x01; x03]). apply nodupb_iff. reflexivity.
    - intros p I. apply T3_in in I as [->|[->| ->]]; vm_compute; split; discriminate.
    - intros p I. apply T3_in in I as [->|[->| ->]]; reflexivity.
    - intros p I. apply T3_in in I as [->|[->| ->]]; reflexivity.
    - vm_compute. split; discriminate.
  Qed.
  Example C51_laws : (@dh_agrees ToyE ToyET /\ @gcm_opens ToyE ToyET /\ @scalar_faithful ToyE ToyET)
    /\ encrypting toy_scheme e_encrypt /\ reencrypting toy_scheme.
  Proof. exact (conj (conj e_dh_agrees (conj e_gcm_opens e_scalar_faithful)) (conj e_encrypting e_reencrypting)). Qed.

  Definition made (p : Trustee * ed_secret) : list (byte * bytes) :=
    match @generate_shares ToyE ToyET TrError (fst p) (fun n => arr_rep (u8_of (N.of_nat n)) 12) (snd p) (all_keys T3 e3) e3 (all_commitments T3 e3) with
    | Ok m => sv m | _ => [] end.
  Example C51_honest : honest_shares T3 e3 made.
  Proof.
    intros p I.
    destruct (C51_shares_made toy_scheme e_dh_agrees e_gcm_opens e_scalar_faithful T3 x02 e3 C51_ceremony TrError p
                (fun n => arr_rep (u8_of (N.of_nat n)) 12) I) as (m & G & _).
    eexists. exists m. split; [exact G|]. unfold made. rewrite G. reflexivity.
  Qed.
  Definition inbox (j : byte) : list (byte * bytes) :=
    map (fun p => (tr_index (fst p), match find (fun x => Byte.eqb (fst x) j) (made p) with Some x => snd x | None => [] end)) T3.
  Definition pubs : list (res TrError (EGPublicKey * PubkeyProof)) :=
    map (fun p => generate_public_key (fst p) (snd p) (all_keys T3 e3) (all_commitments T3 e3) (inbox (tr_index (fst p))) e3) T3.
  Definition pub_value (r : res TrError (EGPublicKey * PubkeyProof)) : N :=
    match r with Ok (k, _) => sv (vc (sv k)) | _ => 999%N end.
  Definition ask (p : Trustee * ed_secret) (row : list Ciphertext) : list DecryptShare :=
    flat_map (fun ct => match partial_decrypt [] (fst p) (snd p) (all_keys T3 e3) (all_commitments T3 e3) (inbox (tr_index (fst p))) ct e3 with
                        | Ok s => [s] | _ => [] end) row.
  Definition pk3 : list PublicKeyTx :=
    flat_map (fun p => match generate_public_key (fst p) (snd p) (all_keys T3 e3) (all_commitments T3 e3) (inbox (tr_index (fst p))) e3 with
                       | Ok (k, pf) => [mk_pubkey e3 e3 (tr_index (fst p)) (tr_public_key (fst p)) k pf] | _ => [] end) T3.
  Definition part3 (row : list Ciphertext) (p : Trustee * ed_secret) : PartialTx :=
    mk_partial e3 e3 e3 (n16 0) (n32 0) (tr_index (fst p)) (tr_public_key (fst p)) (ask p row).
  Definition votes3 : list (list Selection) := [[sel (lit "yes"); sel (lit "maybe")]; [sel (lit "no")]].
  Definition run3 (who : people) : list (option (list Selection)) :=
    match pubs with
    | Ok (key, _) :: _ =>
        let rows := map (fun v => fst (encrypt_vote e_encrypt key v 5)) votes3 in
        match @shuffle ToyE ToyET [x01] 2 rows key [x2a] with
        | Some (outs, pf) =>
            if shuffle_verify [x01] 2 rows outs key pf
            then map (fun row => match decrypt_vote row x02 (map fst T3) pk3 (map (part3 row) who) with Ok v => Some v | _ => None end) outs
            else []
        | None => []
        end
    | _ => []
    end.
  Fixpoint osels_eqb (a b : list (option (list Selection))) : bool :=
    match a, b with
    | [], [] => true
    | Some x :: a', Some y :: b' => sels_eqb x y && osels_eqb a' b'
    | None :: a', None :: b' => osels_eqb a' b'
    | _, _ => false
    end.
  (** all three compute the same key; two of the three decrypt the mixed votes, one alone cannot *)
  Example C51_case :
    (match map pub_value pubs with [a; b; c] => (a =? b)%N && (b =? c)%N && (0 <? a)%N && (a <? 257)%N | _ => false end)
    && osels_eqb (run3 [tt3 x0c x03; tt3 x0a x01]) [Some [sel (lit "no")]; Some [sel (lit "yes"); sel (lit "maybe")]]
    && osels_eqb (run3 [tt3 x0b x02; tt3 x0c x03]) [Some [sel (lit "no")]; Some [sel (lit "yes"); sel (lit "maybe")]]
    && osels_eqb (run3 [tt3 x0b x02]) [None; None] = true.
  Proof. vm_compute. reflexivity. Qed.
End Case.

Print Assumptions C51_shares_made.
Print Assumptions C51_quorum_decrypts.
Print Assumptions C51_election.
Print Assumptions C51_fewer_shares_hide.
