(** * Props_Rest2: C98 (the nodes come to rest). *)
From Verif Require Import Base BaseFacts HexFacts Utf8 Cbor Ident BuildId IdentFacts Crypto Types Serde Store SpecStore StoreFacts
  Prost Validate ValidateFacts SpecValid SpecHist HistFacts Encrypt Trustee Tasks SpecTasks SpecService SpecThreshold
  Lagrange ThresholdFacts SpecRun RunFacts SpecSerde SpecCli SpecOutcome Toy ToyT ToyE Scene Props_Threshold.
From Coq Require Import Strings.String ZifyBool ZifyNat ZifyN Sorting.Permutation.
Import List ListNotations.
From Verif Require Import ValidFacts ValidFacts2 ValidFacts3 TasksFacts TasksFacts2 TasksFacts3 Props_Run SpecRest.
Open Scope list_scope.

Section Props.
  Context {C : Crypto} {TC : TCrypto}.
  Variable dbg : bool.

  Lemma mix_answer sk r s m l y : process_mix dbg sk r s m = Ok l -> In y l -> (exists p, s_tx y = XPartial p)
    \/ exists m' el, t_election s (mx_election m) = Ok el /\ @u8_add TaskError dbg (mx_index m) x01 = Ok (mx_index m')
       /\ @u8_add TaskError dbg (mx_index m) x02 = Ok (mx_trustee m')
       /\ s_tx y = XMix m' /\ mx_prev m' = None /\ mx_election m' = el_id el /\ id_election (mx_id m') = id_election (el_id el).
  Proof.
    intros G I. unfold process_mix in G. apply bind_ok in G as (el & A & G). destruct (trustee_from_election el (node_key sk)) as [t|]; [|injection G as <-; destruct I].
    destruct (el_mix_config el); [|injection G as <-; destruct I]. apply bind_ok in G as (nx & Nx & G). destruct (Byte.eqb (el_threshold el) nx).
    - left. unfold produce_partials in G. apply bind_ok in G as (shs & S1 & G). apply bind_ok in G as (cs & Cs & G). apply bind_ok in G as (shares & Sh & G). apply partials_from_in in G.
      destruct (Forall2_in_l _ _ _ _ G I) as ([[[up idx] c] row] & J & i & ds & D & X). apply tsign_tx in X as (X & _). unfold partial_tx in X. eexists. exact X.
    - right. apply bind_ok in G as (turn & Tu & G). destruct (Byte.eqb (tr_index t) turn) eqn:E; [|injection G as <-; destruct I]. apply byte_eqb_eq in E. subst turn.
      apply bind_ok in G as (k & K & G). apply bind_ok in G as (mp & _ & G). 
      exists (mk_mix (mix_build_id (el_id el) (mx_contest m) (u_of 4 0) nx (tr_index t)) (el_id el) None (tr_index t) (tr_public_key t) nx (mx_contest m) (u_of 4 0) (mx_votes m) (fst mp) (snd mp)).
      exists el. rewrite (one_tx _ _ _ _ G I).
      split; [exact A|]. split; [exact Nx|]. split; [exact Tu|]. split; [reflexivity|]. split; [reflexivity|]. split; reflexivity.
  Qed.

  (** a reply is about the same election, lies in its range, and is the next step; a mix that replies to
      a mix names no mix before it *)
  Theorem C98_next_step : forall h x y, replied dbg h x y ->
    next_step (s_tx x) (s_tx y) /\ about (s_tx y) = about (s_tx x) /\ id_election (s_id y) = id_election (about (s_tx x))
    /\ forall m m', s_tx x = XMix m -> s_tx y = XMix m' ->
         mx_prev m' = None /\ @u8_add TaskError dbg (mx_index m) x01 = Ok (mx_index m') /\ @u8_add TaskError dbg (mx_index m) x02 = Ok (mx_trustee m').
  Proof.
    intros h x y (h1 & h2 & sk & r & l & -> & _ & G & I). pose proof (stored_holds h1) as H.
    assert (Ei : forall i el, t_election (ms_store (ms_from h1)) i = Ok el -> el_id el = i).
    { intros i el E. apply (t_election_iff _ _ H) in E. apply (at_election_id _ _ _ E). }
    pose proof (gen_inv dbg sk r _ _ _ _ _ H G I) as A. unfold answer in A. unfold s_id.
    destruct (s_tx y) as [t|t|t|t|t|t|t|t|t|t] eqn:Ty; try contradiction.
    - destruct A as (el & tr & Tx & _ & ->). rewrite Tx. split; [exact Logic.I|]. split; [reflexivity|]. split; [reflexivity|]. discriminate.
    - destruct A as (c & el & tr & cs & m & Tx & E & _ & _ & _ & _ & ->). rewrite Tx. apply Ei in E. unfold about. cbn [named_election ks_election]. rewrite E.
      split; [exact Logic.I|]. split; [reflexivity|]. split; [reflexivity|]. discriminate.
    - destruct A as (c & el & tr & shs & cs & shares & kp & Tx & E & _ & _ & _ & _ & _ & _ & ->). rewrite Tx. apply Ei in E. unfold about. cbn [named_election kp_election]. rewrite E.
      split; [exact Logic.I|]. split; [reflexivity|]. split; [reflexivity|]. discriminate.
    - destruct A as (c & el & pks & Tx & E & _ & _ & _ & ->). rewrite Tx. apply Ei in E. unfold about. cbn [named_election ek_election]. rewrite E.
      split; [exact Logic.I|]. split; [reflexivity|]. split; [reflexivity|]. discriminate.
    - destruct A as [(ve & el & tr & k & vs & n & c & votes & mp & Tx & E & _ & _ & _ & _ & _ & _ & _ & ->)|(m0 & el0 & nx0 & Tx & _)].
      + rewrite Tx. apply Ei in E. unfold about. cbn [named_election mx_election]. rewrite E. split; [exact Logic.I|]. split; [reflexivity|]. split; [reflexivity|]. discriminate.
      + unfold generate_transactions in G. rewrite Tx in *. destruct (mix_answer _ _ _ _ _ _ G I) as [(p & X)|(m' & el & E & Nx & Tu & X & Pr & Em & Ie)]; rewrite Ty in X; [discriminate X|].
        injection X as ->. apply Ei in E. unfold about. cbn [named_election tx_id]. rewrite Em, Ie, E. split; [exact Logic.I|]. split; [reflexivity|]. split; [reflexivity|].
        intros m m1 X Y. injection X as <-. injection Y as <-. auto.
    - destruct A as (el & tr & shs & cs & shares & i & ds & up & idx & c & row & _ & _ & _ & _ & _ & _ & -> & [(ve & vs & v & ev & Tx & E & _)|(m & j & Tx & E & _)]);
        rewrite Tx; unfold about; cbn [named_election pd_election]; rewrite E; (split; [exact Logic.I|]); (split; [reflexivity|]); (split; [reflexivity|]); discriminate.
    - destruct A as (p & el & tr & parts & cts & pks & sels & Tx & E & _ & _ & _ & _ & _ & ->). rewrite Tx. apply Ei in E. unfold about. cbn [named_election dc_election]. rewrite E.
      split; [exact Logic.I|]. split; [reflexivity|]. split; [reflexivity|]. discriminate.
  Qed.

  (** ** how many *)
  Lemma one_length sk t l : one sk t = Ok l -> length l = 1.
  Proof. unfold one. intros G. apply bind_ok in G as (x & _ & G). injection G as <-. reflexivity. Qed.
  Lemma push_length {A} c (x : A) m : length (push c x m) <= S (length m).
  Proof. induction m as [|[c' l] m IH]; cbn [push]; [cbn; lia|]. destruct (u_eqb c c'); cbn [length]; lia. Qed.
  Lemma contest_length vs : length (contest_votes vs) <= list_sum (map (fun v => length (vt_votes v)) vs).
  Proof.
    unfold contest_votes. assert (G : forall m, length (fold_left (fun m v => fold_left (fun m ev => push (ev_contest ev) (vt_id v, ev_selections ev) m) (vt_votes v) m) vs m)
      <= length m + list_sum (map (fun v => length (vt_votes v)) vs)).
    { induction vs as [|v vs IH]; intros m; cbn [fold_left map list_sum fold_right]; [lia|]. etransitivity; [apply IH|]. cbn [list_sum fold_right].
      assert (P : forall l m, length (fold_left (fun m ev => push (ev_contest ev) (vt_id v, ev_selections ev) m) l m) <= length m + length l).
      { induction l as [|ev l IHl]; intros m'; cbn [fold_left length]; [lia|]. etransitivity; [apply IHl|]. pose proof (push_length (ev_contest ev) (vt_id v, ev_selections ev) m'). lia. }
      specialize (P (vt_votes v) m). unfold list_sum. lia. }
    specialize (G []). cbn [length] in G. lia.
  Qed.
  Lemma first_mixes_length sk r el t key l : forall n xs, first_mixes sk r n el t key l = Ok xs -> length xs = length l.
  Proof.
    induction l as [|[c votes] l IH]; intros n xs G; cbn [first_mixes] in G; [injection G as <-; reflexivity|].
    apply bind_ok in G as (mp & _ & G). apply bind_ok in G as (x & _ & G). apply bind_ok in G as (xs' & G & E). injection E as <-. cbn [length]. rewrite (IH _ _ G). reflexivity.
  Qed.
  Lemma partials_length sk r t keys cs sh i l : forall n xs, partials_from sk r n t keys cs sh i l = Ok xs -> length xs = length l.
  Proof.
    induction l as [|[[[up ix] c] row] l IH]; intros n xs G; cbn [partials_from] in G; [injection G as <-; reflexivity|].
    apply bind_ok in G as (ds & _ & G). apply bind_ok in G as (x & _ & G). apply bind_ok in G as (xs' & G & E). injection E as <-. cbn [length]. rewrite (IH _ _ G). reflexivity.
  Qed.
  Lemma rows_length up c rows : forall n, length (rows_from n up c rows) = length rows.
  Proof. induction rows as [|row rows IH]; intros n; cbn [rows_from length]; [reflexivity|]. rewrite IH. reflexivity. Qed.
  Lemma sources_length vs : length (flat_map vote_sources vs) = list_sum (map (fun v => length (vt_votes v)) vs).
  Proof. induction vs as [|v vs IH]; [reflexivity|]. cbn [flat_map map]. rewrite app_length, IH. unfold vote_sources. rewrite map_length. reflexivity. Qed.
  Lemma range_sum L e vs : range_is L e TVote XVote vs -> list_sum (map (fun v => length (vt_votes v)) vs) = rows_cast L e.
  Proof.
    unfold range_is, rows_cast. intros E. generalize dependent vs. induction (listed L e TVote) as [|x l IH]; intros [|v vs] E; try discriminate E; [reflexivity|].
    cbn [map] in E. injection E as X E. cbn [map list_sum fold_right]. rewrite X. specialize (IH vs E). unfold list_sum in IH. rewrite <- IH. reflexivity.
  Qed.
  Lemma sum_perm l l' : Permutation l l' -> list_sum l = list_sum l'.
  Proof. induction 1; cbn [list_sum fold_right] in *; unfold list_sum in *; lia. Qed.
  Lemma filter_perm {A} (f : A -> bool) l l' : Permutation l l' -> Permutation (filter f l) (filter f l').
  Proof.
    induction 1 as [|a l l' P IH|a b l|l l' l'' P1 IH1 P2 IH2]; cbn [filter]; [constructor| | |etransitivity; eassumption].
    - destruct (f a); [apply perm_skip|]; exact IH.
    - destruct (f a), (f b); try reflexivity. apply perm_swap.
  Qed.
  Lemma rows_stored h1 h2 e : history dbg (h1 ++ h2) -> rows_cast (stored h1) e <= rows_cast (h1 ++ h2) e.
  Proof.
    intros H. pose proof (hist_prefix dbg _ _ H) as H1.
    assert (P : Permutation (stored h1) h1).
    { apply NoDup_Permutation; [apply (NoDup_map_inv s_id), asc_nodup, stored_asc|apply (NoDup_map_inv s_id), (hist_nodup dbg), H1|]. intros x. apply (hist_stored dbg _ _ H1). }
    transitivity (rows_cast h1 e).
    - unfold rows_cast, listed. erewrite sum_perm; [reflexivity|]. apply Permutation_map, filter_perm, P.
    - unfold rows_cast, listed. rewrite filter_app, map_app, list_sum_app. lia.
  Qed.
  Theorem C98_few : forall h1 h2 sk r x l, history dbg (h1 ++ h2) -> generate_transactions dbg sk r (ms_store (ms_from h1)) x = Ok l ->
    length l <= most (h1 ++ h2) (s_tx x).
  Proof.
    intros h1 h2 sk r x l Hh G. pose proof (stored_holds h1) as H. unfold generate_transactions in G. unfold most. destruct (s_tx x) as [t|t|t|t|t|t|t|t|t|t].
    - unfold process_election in G. destruct (trustee_from_election t (node_key sk)); [|injection G as <-; cbn; lia]. apply one_length in G. lia.
    - unfold process_keygen_commitment in G. apply bind_ok in G as (el & _ & G). destruct (trustee_from_election el (node_key sk)); [|injection G as <-; cbn; lia].
      apply bind_ok in G as (cs & _ & G). destruct (Nat.eqb _ _); [|injection G as <-; cbn; lia]. apply bind_ok in G as (m & _ & G). apply one_length in G. lia.
    - unfold process_keygen_share in G. apply bind_ok in G as (el & _ & G). destruct (trustee_from_election el (node_key sk)); [|injection G as <-; cbn; lia].
      apply bind_ok in G as (cs & _ & G). destruct (negb _); [injection G as <-; cbn; lia|]. apply bind_ok in G as (? & _ & G). apply bind_ok in G as (? & _ & G). apply bind_ok in G as (m & _ & G).
      apply one_length in G. lia.
    - unfold process_keygen_public_key in G. apply bind_ok in G as (el & _ & G). destruct (pk_eqb _ _); [|injection G as <-; cbn; lia].
      apply bind_ok in G as (cs & _ & G). destruct (Nat.eqb _ _); [|injection G as <-; cbn; lia]. apply one_length in G. lia.
    - injection G as <-. cbn. lia.
    - injection G as <-. cbn. lia.
    - unfold process_voting_end in G. apply bind_ok in G as (el & E & G). apply (t_election_iff _ _ H), at_election_id in E. rewrite <- E.
      etransitivity; [|apply (rows_stored h1 h2 _ Hh)]. destruct (trustee_from_election el (node_key sk)); [|injection G as <-; cbn [length]; lia].
      destruct (el_mix_config el).
      + destruct (Byte.eqb _ _); [|injection G as <-; cbn [length]; lia]. apply bind_ok in G as (k & _ & G). apply bind_ok in G as (vs & V & G).
        apply (t_multiple_iff _ _ H as_vote XVote) in V; [|intros []; cbn; split; congruence]. rewrite (first_mixes_length _ _ _ _ _ _ _ _ G), <- (range_sum _ _ _ V). apply contest_length.
      + destruct (el_contests el); [injection G as <-; cbn [length]; lia|]. unfold produce_partials in G. apply bind_ok in G as (? & _ & G). apply bind_ok in G as (? & _ & G).
        apply bind_ok in G as (? & _ & G). apply bind_ok in G as (vs & V & G).
        apply (t_multiple_iff _ _ H as_vote XVote) in V; [|intros []; cbn; split; congruence]. rewrite (partials_length _ _ _ _ _ _ _ _ _ _ G), sources_length, <- (range_sum _ _ _ V). reflexivity.
    - unfold process_mix in G. apply bind_ok in G as (el & _ & G). destruct (trustee_from_election el (node_key sk)); [|injection G as <-; cbn [length]; lia].
      destruct (el_mix_config el); [|injection G as <-; cbn [length]; lia]. apply bind_ok in G as (nx & _ & G). destruct (Byte.eqb _ _).
      + unfold produce_partials in G. apply bind_ok in G as (? & _ & G). apply bind_ok in G as (? & _ & G). apply bind_ok in G as (? & _ & G).
        rewrite (partials_length _ _ _ _ _ _ _ _ _ _ G), rows_length. lia.
      + apply bind_ok in G as (? & _ & G). destruct (Byte.eqb _ _); [|injection G as <-; cbn [length]; lia]. apply bind_ok in G as (? & _ & G). apply bind_ok in G as (? & _ & G).
        apply one_length in G. lia.
    - unfold process_partial_decryption in G. apply bind_ok in G as (el & _ & G). destruct (trustee_from_election el (node_key sk)); [|injection G as <-; cbn; lia].
      apply bind_ok in G as (? & _ & G). destruct (Nat.leb _ _); [|injection G as <-; cbn; lia]. apply bind_ok in G as (? & _ & G). apply bind_ok in G as (? & _ & G). apply bind_ok in G as (? & _ & G).
      apply bind_ok in G as (? & _ & G). apply one_length in G. lia.
    - injection G as <-. cbn. lia.
  Qed.

  (** ** how long *)
  Lemma no_prev h x m : history dbg h -> In x h -> s_tx x = XMix m -> mx_prev m = None -> mx_index m = x00.
  Proof.
    intros Hh Ix T P. destruct (in_split_hist _ _ Ix) as (p & q & ->). destruct (hist_at dbg _ _ _ Hh) as (_ & _ & V).
    pose proof (proj1 (validate_iff _ _ (stored_holds p) dbg x) V) as (_ & _ & O). unfold ok_tx in O. rewrite T in O. 
    destruct O as (_ & _ & _ & _ & ins & k & [(_ & O & _)|(p0 & pm & O & _)] & _); [exact O|congruence].
  Qed.
  Definition depth (t : Tx) : nat :=
    match t with
    | XElection _ | XVote _ | XVotingEnd _ => 1 | XCommitment _ => 2 | XShare _ => 3 | XPublicKey _ => 4 | XEncryptionKey _ => 5
    | XMix _ => 2 | XPartial _ => 3 | XDecryption _ => 4
    end.
  Lemma exchange_depth h l : history dbg h -> exchange dbg h l ->
    match l with [] => False | x :: l' => In x h /\ length l <= depth (s_tx x) /\ (forall m, s_tx x = XMix m -> l' <> [] -> mx_prev m = None) end.
  Proof.
    intros Hh. induction 1 as [x Ix|x y l E IH Iy R].
    - split; [exact Ix|]. split; [destruct (s_tx x); cbn; lia|]. congruence.
    - destruct IH as (Ix & Ln & Pv). split; [exact Iy|]. pose proof (C98_next_step _ _ _ R) as (N & _ & _ & M). cbn [length] in *.
      assert (Mm : forall m m', s_tx x = XMix m -> s_tx y = XMix m' -> l = []).
      { intros m m' Tx Ty. destruct l as [|z l]; [reflexivity|exfalso]. destruct (M m m' Tx Ty) as (P & Nx & _).
        pose proof (no_prev h y m' Hh Iy Ty P) as Z'. pose proof (no_prev h x m Hh Ix Tx (Pv m Tx ltac:(discriminate))) as Z. rewrite Z, Z' in Nx. destruct dbg; discriminate Nx. }
      split.
      + destruct (s_tx x) eqn:Tx, (s_tx y) eqn:Ty; try contradiction; cbn [depth] in *; try lia. rewrite (Mm _ _ eq_refl eq_refl). cbn. lia.
      + intros m' Ty _. destruct (s_tx x) eqn:Tx; rewrite Ty in N; try contradiction.
        * destruct R as (h1 & h2 & sk & r & l0 & -> & _ & G & I). pose proof (gen_inv dbg sk r _ _ _ _ _ (stored_holds h1) G I) as A. unfold answer in A. rewrite Ty in A.
          destruct A as [(ve & el & tr & k & vs & n & c & votes & mp & _ & _ & _ & _ & _ & _ & _ & _ & _ & ->)|(m0 & ? & ? & X & _)]; [reflexivity|congruence].
        * exact (proj1 (M _ _ eq_refl Ty)).
  Qed.
  (** no exchange goes on for more than five transactions *)
  Theorem C98_at_rest : forall h l, history dbg h -> exchange dbg h l -> length l <= 5.
  Proof.
    intros h l Hh E. apply (exchange_depth h l Hh) in E. destruct l as [|x l]; [destruct E|]. destruct E as (_ & E & _). etransitivity; [exact E|]. destruct (s_tx x); cbn; lia.
  Qed.
End Props.

(** ** the election of C73 with a mixnet: one exchange makes the key, one the result *)
Section Case.
  Local Existing Instance ToyE.
  Local Existing Instance ToyET.
  Local Existing Instance Fq.
  Local Existing Instance Gq.
  Lemma steps_replied el T contests auth l : forall h0 h, steps_from el T contests auth h0 l = Some h ->
    (exists q, h = h0 ++ q) /\ forall k n w i j, nth_error l k = Some (Node n w i j) ->
    exists x y, nth_error h i = Some x /\ nth_error h (length h0 + k) = Some y /\ replied true h x y.
  Proof.
    induction l as [|s l IH]; intros h0 h G; cbn [steps_from] in G.
    { injection G as <-. split; [exists []; symmetry; apply app_nil_r|]. intros [|k]; discriminate. }
    destruct (step_of el T contests auth h0 s) as [y|] eqn:E; [|discriminate G]. destruct (IH _ _ G) as ((q & ->) & R). rewrite <- app_assoc in *.
    split; [eexists; reflexivity|]. intros [|k] n w i j N.
    - cbn [nth_error] in N. injection N as ->. cbn [step_of] in E. destruct (nth_error (firstn n h0) i) as [x|] eqn:X; [|discriminate E].
      destruct (arr_eqb _ _); [|discriminate E]. destruct (generate_transactions _ _ _ _ x) as [xs|?|?] eqn:Ge; try discriminate E.
      destruct (nth_error xs j) as [y'|] eqn:Y; [|discriminate E]. destruct (freshb h0 (s_id y')); [|discriminate E]. injection E as ->.
      exists x, y. split; [|split].
      + rewrite <- (firstn_skipn n h0), <- app_assoc. rewrite nth_error_app1; [exact X|]. apply nth_error_Some. congruence.
      + rewrite Nat.add_0_r, nth_error_app2, Nat.sub_diag by lia. reflexivity.
      + exists (firstn n h0), (skipn n h0 ++ [y] ++ q), (secret_of T auth w), rnd0, xs. 
        split; [rewrite (app_assoc (firstn n h0)), firstn_skipn; reflexivity|]. split; [exact (nth_error_In _ _ X)|]. split; [exact Ge|exact (nth_error_In _ _ Y)].
    - cbn [nth_error] in N. destruct (R k n w i j N) as (x & y' & X & Y & Z). exists x, y'. rewrite app_length in Y. cbn [length] in Y.
      replace (length h0 + S k) with (length h0 + 1 + k) by lia. auto.
  Qed.
  Lemma runs_replied el T contests auth l h : runs el T contests auth l = Some h -> forall k n w i j, nth_error l k = Some (Node n w i j) ->
    exists x y, nth_error h i = Some x /\ nth_error h (S k) = Some y /\ replied true h x y.
  Proof. unfold runs. destruct (acceptb [] _); [|discriminate]. intros R. exact (proj2 (steps_replied _ _ _ _ _ _ _ R)). Qed.
  Lemma runM_types : match runs elM TM [n32 0] x01 stepsM with Some h => map s_type h | None => [] end
    = [TElection; TKeyGenCommitment; TKeyGenCommitment; TKeyGenShare; TKeyGenShare; TKeyGenPublicKey; TKeyGenPublicKey; TEncryptionKey;
       TVote; TVote; TVotingEnd; TMix; TPartialDecryption; TPartialDecryption; TDecryption; TDecryption].
  Proof. vm_compute. reflexivity. Qed.
  Lemma type_at h k x t : nth_error h k = Some x -> nth_error (map s_type h) k = Some t -> s_type x = t.
  Proof. intros X T. rewrite (map_nth_error s_type _ _ X) in T. congruence. Qed.
  Example C98_case : exists h l l', history true h /\ exchange true h l /\ length l = 5 /\ exchange true h l' /\ length l' = 4
    /\ map s_type l = [TEncryptionKey; TKeyGenPublicKey; TKeyGenShare; TKeyGenCommitment; TElection]
    /\ map s_type l' = [TDecryption; TPartialDecryption; TMix; TVotingEnd].
  Proof.
    pose proof runM_types as Ty. destruct (runs elM TM [n32 0] x01 stepsM) as [h|] eqn:Ru; [|discriminate Ty].
    assert (Hh : history true h).
    { apply (C70_history toy_scheme e_encrypt true elM TM [n32 0]); [apply C70_laws|exact set_upM|].
      apply (runs_honest elM TM [n32 0] x01) with (l := stepsM); [reflexivity| |exact Ru]. intros p [<-|[<-|[]]] X; apply (f_equal (fun k => hd x00 (arr_l (sv k)))) in X; discriminate X. }
    pose proof (runs_replied _ _ _ _ _ _ Ru) as R. clear Ru.
    destruct (R 0 _ _ _ _ eq_refl) as (x0 & x1 & X0 & X1 & R1). destruct (R 2 _ _ _ _ eq_refl) as (x1' & x3 & X1' & X3 & R3).
    destruct (R 4 _ _ _ _ eq_refl) as (x3' & x5 & X3' & X5 & R5). destruct (R 6 _ _ _ _ eq_refl) as (x5' & x7 & X5' & X7 & R7).
    destruct (R 10 _ _ _ _ eq_refl) as (x10 & x11 & X10 & X11 & R11). destruct (R 11 _ _ _ _ eq_refl) as (x11' & x12 & X11' & X12 & R12).
    destruct (R 13 _ _ _ _ eq_refl) as (x12' & x14 & X12' & X14 & R14). clear R.
    rewrite X1 in X1'. injection X1' as <-. rewrite X3 in X3'. injection X3' as <-. rewrite X5 in X5'. injection X5' as <-.
    rewrite X11 in X11'. injection X11' as <-. rewrite X12 in X12'. injection X12' as <-.
    exists h, [x7; x5; x3; x1; x0], [x14; x12; x11; x10]. split; [exact Hh|].
    split; [repeat (apply ex_more; [|eapply nth_error_In; eassumption|assumption]); apply ex_one; eapply nth_error_In; eassumption|]. split; [reflexivity|].
    split; [repeat (apply ex_more; [|eapply nth_error_In; eassumption|assumption]); apply ex_one; eapply nth_error_In; eassumption|]. split; [reflexivity|].
    cbn [map]. split; repeat f_equal; eapply type_at; try eassumption; rewrite Ty; reflexivity.
  Qed.
End Case.
Print Assumptions C98_next_step.
Print Assumptions C98_few.
Print Assumptions C98_at_rest.
