(** * ValidFacts2: acceptance of votes and mixes. *)
From Verif Require Import Base BaseFacts Hex HexFacts Utf8 Cbor CborFacts Ident BuildId IdentFacts Crypto Types
  Serde SerdeFacts Store SpecStore StoreFacts Prost Validate ValidateFacts SpecValid ValidFacts.
From Coq Require Import ZifyBool ZifyNat ZifyN.
Open Scope list_scope.

Lemma id_masked_ok {E} fill e t mask i :
  @id_masked E fill e t (Some mask) = Ok i <->
  length mask <= 16 /\ id_election i = id_election e /\ id_type i = t
  /\ arr_l (id_unique i) = mask ++ repeat fill (16 - length mask).
Proof.
  unfold id_masked. destruct (masked fill mask) as [u|] eqn:M.
  - apply masked_some in M as [M1 M2]. split.
    + intros X. injection X as <-. cbn. auto.
    + intros (_ & A & B & D). f_equal. apply id_ext; cbn; auto. apply arr_ext. congruence.
  - split; [discriminate|]. intros (A & _ & _ & D). exfalso.
    assert (masked fill mask = Some (id_unique i)) by (apply masked_some; auto). congruence.
Qed.

Section Facts.
  Context {C : Crypto}.
  Variables (s : Store) (L : list STx).
  Hypothesis H : holds s L.
  Let asc : ascending L := h_asc _ _ H.

  Lemma auth_pack_message e b k : auth_pack e b k = auth_message e b k.
  Proof. reflexivity. Qed.
  Lemma auth_verify_iff a e b k sig : auth_verify a e b k sig = Ok tt <-> authenticated a e b k sig.
  Proof.
    unfold auth_verify, authenticated, auth_digest. split.
    - intros V. apply bind_ok in V as (pk & A & V). apply bind_ok in V as (d & B & V).
      apply ok_or_ok in A. apply or_panic_ok in B. rewrite fail_if_tt, negb_false_iff in V.
      exists pk, d. split; [|auto]. apply (assoc_in _ rs_eqb_eq) in A; [exact A|apply (s_ok (au_keys a))].
    - intros (pk & d & A & B & V). apply (assoc_in _ rs_eqb_eq) in A; [|apply (s_ok (au_keys a))].
      rewrite A. cbn [ok_or bind]. rewrite auth_pack_message, B. cbn [or_panic bind]. rewrite V. reflexivity.
  Qed.

  Lemma collision_check_iff t :
    (let mask := firstn 10 (arr_l (sv (vt_key t))) in
     let! a := id_start (vt_election t) TVote (Some mask) in
     let! b := id_start (vt_election t) TVote (Some mask) in
     let! l := lift (st_range s a b) in
     fail_if (Nat.ltb 0 (length l)) VoteAnonymousKeyCollision) = Ok tt
    <-> forall x, In x L -> ~ collision_slot (vt_election t) (vt_key t) (s_id x).
  Proof.
    set (mask := firstn 10 _). assert (Hm : length mask = 10).
    { unfold mask. rewrite firstn_length, arr_len. reflexivity. }
    assert (exists i, @id_start VError (vt_election t) TVote (Some mask) = Ok i) as (i & Hi).
    { unfold id_start, id_masked. destruct (masked x00 mask) as [u|] eqn:M; [eauto|].
      exfalso. unfold masked in M. revert M. generalize (masked_ok x00 mask). rewrite Hm. discriminate. }
    cbn zeta. rewrite Hi. cbn [bind]. rewrite (holds_point _ _ _ H). cbn [lift bind].
    apply id_masked_ok in Hi as (_ & I1 & I2 & I3). rewrite Hm in I3.
    assert (S : forall j, collision_slot (vt_election t) (vt_key t) j <-> j = i).
    { intros j. unfold collision_slot. fold mask. change (repeat x00 6) with (repeat x00 (16 - 10)). split.
      - intros (A & B & D). apply id_ext; [congruence..|]. apply arr_ext. congruence.
      - intros ->. auto. }
    rewrite fail_if_tt. destruct (entry L i) as [x|] eqn:E.
    - cbn [length Nat.ltb Nat.leb]. split; [discriminate|]. intros N. apply entry_in in E as [Hx Hi]; [|exact asc].
      exfalso. apply (N x Hx). apply S, Hi.
    - cbn [length]. split; [|reflexivity]. intros _ x Hx X. apply S in X.
      rewrite entry_none in E. exact (E x Hx X).
  Qed.

  Lemma validate_vote_iff t : validate_vote s t = Ok tt <-> ok_vote L t.
  Proof.
    unfold validate_vote, ok_vote.
    assert (G : forall e,
      (let mask := firstn 10 (arr_l (sv (vt_key t))) in
       let! a := id_start (vt_election t) TVote (Some mask) in
       let! b := id_start (vt_election t) TVote (Some mask) in
       let! l := lift (st_range s a b) in
       fail_if (Nat.ltb 0 (length l)) VoteAnonymousKeyCollision ;;
       let! ek := lift (st_get s (id_new (vt_election t) TEncryptionKey None)) in
       fail_if (match ek with None => true | Some _ => false end) EncryptionKeyTransactionDoesNotExist ;;
       let! ve := lift (st_get s (id_new (vt_election t) TVotingEnd None)) in
       fail_if (match ve with None => false | Some _ => true end) VotingHasEnded ;;
       for_each (vt_authn t) (fun an =>
         let! a := ok_or (get_authenticator e (an_authenticator an)) AuthDoesNotExist in
         map_err (fun _ => AuthFailed)
           (auth_verify a (el_id e) (vt_ballot t) (vt_key t) (an_signature an))) ;;
       let! b := ok_or (get_ballot e (vt_ballot t)) BallotDoesNotExist in
       for_each (vt_votes t) (fun v =>
         fail_if (negb (existsb (u_eqb (ev_contest v)) (bal_contests b))) VotedInWrongContest)) = Ok tt
      <->
      (forall x, In x L -> ~ collision_slot (vt_election t) (vt_key t) (s_id x))
      /\ occupied L (slot0 (vt_election t) TEncryptionKey)
      /\ ~ occupied L (slot0 (vt_election t) TVotingEnd)
      /\ (forall an, In an (vt_authn t) ->
            exists a, first_with (fun a => au_id a = an_authenticator an) (el_authenticators e) a
              /\ authenticated a (el_id e) (vt_ballot t) (vt_key t) (an_signature an))
      /\ exists b, first_with (fun b => bal_id b = vt_ballot t) (el_ballots e) b
           /\ forall ev, In ev (vt_votes t) -> In (ev_contest ev) (bal_contests b)).
    { intros e. rewrite <- collision_check_iff. cbn zeta.
      destruct (id_start _ _ _) as [a|a|a]; cbn [bind]; [|split; [discriminate|intros [X _]; discriminate]..].
      destruct (lift _) as [l|l|l]; cbn [bind]; [|split; [discriminate|intros [X _]; discriminate]..].
      rewrite seq_ok. apply and_iff_compat_l.
      rewrite !(h_get _ _ H). cbn [lift bind]. rewrite !seq_ok, !fail_if_tt, for_each_iff.
      rewrite !(occupied_entry s L H).
      change (slot0 (vt_election t) TEncryptionKey) with (id_new (vt_election t) TEncryptionKey None).
      change (slot0 (vt_election t) TVotingEnd) with (id_new (vt_election t) TVotingEnd None).
      apply Morphisms_Prop.and_iff_morphism.
      { destruct (entry L _); split; congruence. }
      apply Morphisms_Prop.and_iff_morphism.
      { destruct (entry L _); split; try congruence. intros X. exfalso. apply X. congruence. }
      apply Morphisms_Prop.and_iff_morphism.
      { apply Morphisms_Prop.all_iff_morphism. intros an. apply Morphisms_Prop.iff_iff_iff_impl_morphism; [reflexivity|].
        unfold get_authenticator. rewrite bind_ok. apply Morphisms_Prop.ex_iff_morphism. intros au.
        rewrite ok_or_ok, map_err_ok, auth_verify_iff.
        rewrite (find_first _ (fun a => au_id a = an_authenticator an)); [reflexivity|].
        intros x. rewrite arr_eqb_eq. split; congruence. }
      rewrite bind_ok. apply Morphisms_Prop.ex_iff_morphism. intros b. rewrite ok_or_ok.
      unfold get_ballot. rewrite (find_first _ (fun b => bal_id b = vt_ballot t)).
      - apply and_iff_compat_l. rewrite for_each_iff. apply Morphisms_Prop.all_iff_morphism. intros ev.
        apply Morphisms_Prop.iff_iff_iff_impl_morphism; [reflexivity|].
        rewrite fail_if_tt, negb_false_iff, (existsb_ex _ (fun c => ev_contest ev = c)).
        + split; [intros (x & X & <-); exact X|]. intros X. exists (ev_contest ev). auto.
        + intros x. apply u_eqb_eq.
      - intros x. apply rs_eqb_eq. }
    split.
    - intros V. apply seq_ok in V as [A V]. rewrite fail_if_tt, negb_false_iff, id_eqb_eq in A.
      apply bind_ok in V as (e & B & V). apply (election_of_iff s L H) in B. apply G in V.
      assert (E : el_id e = vt_election t) by (destruct B as (x & _ & B1 & B2); unfold s_id in B1; rewrite B2 in B1; exact B1).
      rewrite E in V. exists e. split; [exact B|]. split; [|exact V]. rewrite <- A. cbn. auto.
    - intros (e & B & (A1 & A2 & A3) & V).
      assert (E : el_id e = vt_election t) by (destruct B as (x & _ & B1 & B2); unfold s_id in B1; rewrite B2 in B1; exact B1).
      apply seq_ok. split.
      + rewrite fail_if_tt, negb_false_iff, id_eqb_eq. apply id_ext; cbn; auto. apply arr_ext. cbn. auto.
      + apply bind_ok. exists e. split; [apply (election_of_iff s L H), B|]. apply G. rewrite E. exact V.
  Qed.

  (** ** mixes *)
  Lemma contest_rows_spec c v : contest_rows c v = cast_rows c (vt_votes v).
  Proof.
    unfold contest_rows. induction (vt_votes v) as [|ev l IH]; [reflexivity|]. cbn [filter cast_rows].
    unfold u_eqb at 1. destruct (N.eqb _ _); cbn [map]; rewrite IH; reflexivity.
  Qed.
  Lemma flat_rows c vs : flat_map (contest_rows c) vs = rows_of c vs.
  Proof. induction vs as [|v vs IH]; [reflexivity|]. cbn. rewrite contest_rows_spec, IH. reflexivity. Qed.

  Lemma is_sorted_asc M : ascending M -> is_sorted (map s_id M) = true.
  Proof.
    induction M as [|x M IH]; [reflexivity|]. intros A. destruct M as [|y M]; [reflexivity|].
    pose proof (asc_head _ _ y A (or_introl eq_refl)) as B. unfold id_lt in B.
    change (is_sorted (map s_id (x :: y :: M))) with
      ((match id_cmp (s_id x) (s_id y) with Gt => false | _ => true end) && is_sorted (map s_id (y :: M))).
    rewrite B, IH by (eapply asc_tail; eauto). reflexivity.
  Qed.
  Lemma has_unique_iff l : has_unique l = true <-> NoDup l.
  Proof.
    induction l as [|a l IH]; cbn [has_unique]; [split; [constructor|reflexivity]|].
    rewrite andb_true_iff, IH, negb_true_iff. split.
    - intros [A B]. constructor; [|exact B]. intros X. apply not_true_iff_false in A. apply A.
      apply existsb_exists. exists a. split; [exact X|apply id_eqb_refl].
    - intros N. inversion N as [|? ? A B]; subst. split; [|exact B]. apply not_true_iff_false. intros X.
      apply existsb_exists in X as (b & Hb & E). apply id_eqb_eq in E. subst. contradiction.
  Qed.

  Lemma mix_first_iff t ins : mx_prev t = None -> (mix_input_first s t = Ok ins <-> first_source L t ins).
  Proof.
    intros Hp. unfold mix_input_first, first_source. split.
    - intros V. rewrite !seq_ok in V. destruct V as (V1 & _ & _ & V). rewrite fail_if_tt, negb_false_iff, byte_eqb_eq in V1.
      rewrite id_start_none, id_end_none in V. cbn [bind] in V.
      rewrite (h_range _ _ H), between_listed in V by apply start_le_end. cbn [lift bind] in V.
      rewrite !seq_ok, !fail_if_tt, !negb_false_iff, ids_eqb_eq in V. destruct V as (_ & V2 & V).
      apply bind_ok in V as (vs & V3 & V). injection V as <-.
      split; [exact Hp|]. split; [exact V1|]. exists vs. split; [|split; [exact V2|apply flat_rows]].
      apply (@range_into _ s L H VError _ as_vote XVote _ _ _ as_vote_iff).
      eexists. rewrite (holds_multiple _ _ _ _ H). split; [reflexivity|exact V3].
    - intros (_ & I0 & vs & R & V2 & ->).
      apply (@range_into _ s L H VError _ as_vote XVote _ _ _ as_vote_iff) in R as (txs & X & V3).
      rewrite (holds_multiple _ _ _ _ H) in X. injection X as <-.
      rewrite !seq_ok. split; [rewrite I0; reflexivity|].
      split; [rewrite fail_if_tt, negb_false_iff, V2; apply is_sorted_asc, listed_asc, asc|].
      split; [rewrite fail_if_tt, negb_false_iff, V2; apply has_unique_iff, asc_nodup, listed_asc, asc|].
      rewrite id_start_none, id_end_none. cbn [bind].
      rewrite (h_range _ _ H), between_listed by apply start_le_end. cbn [lift bind].
      rewrite V2, map_length, Nat.eqb_refl. cbn [negb fail_if bind].
      rewrite (proj2 (ids_eqb_eq _ _) eq_refl). cbn [negb fail_if bind]. rewrite V3. cbn [bind].
      rewrite flat_rows. reflexivity.
  Qed.

  Lemma u8_add_1 {E} dbg (a r : byte) :
    @u8_add E dbg a x01 = Ok r <->
    (u8v r = (u8v a + 1)%N \/ (dbg = false /\ a = xff /\ r = x00)).
  Proof.
    unfold u8_add. change (u8v x01) with 1%N. pose proof (u8v_lt a). pose proof (u8v_lt r).
    destruct (N.ltb_spec (u8v a + 1) 256).
    - split.
      + intros X. injection X as <-. left. rewrite u8v_u8_of, N.mod_small by lia. reflexivity.
      + intros [X|(_ & -> & _)]; [|exfalso; change (u8v xff) with 255%N in *; lia]. f_equal. apply u8v_inj.
        rewrite u8v_u8_of, N.mod_small by lia. auto.
    - assert (a = xff) by (apply u8v_inj; change (u8v xff) with 255%N; lia). subst a.
      change (u8v xff) with 255%N in *. destruct dbg.
      + split; [discriminate|]. intros [X|(X & _)]; [lia|discriminate].
      + split.
        * intros X. injection X as <-. right. auto.
        * intros [X|(_ & _ & ->)]; [lia|]. reflexivity.
  Qed.
  Lemma u8_sub_1_iff {E} dbg (a r : byte) :
    @u8_sub E dbg a x01 = Ok r <->
    (u8v a = (u8v r + 1)%N \/ (dbg = false /\ a = x00 /\ r = xff)).
  Proof.
    unfold u8_sub. change (u8v x01) with 1%N. pose proof (u8v_lt a). pose proof (u8v_lt r).
    destruct (N.leb_spec 1 (u8v a)).
    - split.
      + intros X. injection X as <-. left. rewrite u8v_u8_of, N.mod_small by lia. lia.
      + intros [X|(_ & -> & _)]; [|exfalso; change (u8v x00) with 0%N in *; lia]. f_equal. apply u8v_inj.
        rewrite u8v_u8_of, N.mod_small by lia. lia.
    - assert (a = x00) by (apply u8v_inj; change (u8v x00) with 0%N; lia). subst a.
      change (u8v x00) with 0%N in *. destruct dbg.
      + split; [discriminate|]. intros [X|(X & _)]; [lia|discriminate].
      + split.
        * intros X. injection X as <-. right. auto.
        * intros [X|(_ & _ & ->)]; [lia|]. reflexivity.
  Qed.

  Lemma mix_prev_iff dbg t p ins :
    mx_prev t = Some p -> (mix_input_prev dbg s t p = Ok ins <-> next_source dbg L t ins).
  Proof.
    intros Hp. unfold mix_input_prev, next_source. rewrite (h_get _ _ H). cbn [lift bind]. split.
    - intros V. apply bind_ok in V as (x & E & V). apply ok_or_ok in E.
      apply bind_ok in V as (pm & M & V). apply or_panic_ok, as_mix_iff in M.
      apply bind_ok in V as (nx & A & V). apply seq_ok in V as [V I]. injection I as <-.
      rewrite fail_if_tt, negb_false_iff, !andb_true_iff, byte_eqb_eq, id_eqb_eq, !u_eqb_eq, ids_eqb_eq in V.
      destruct V as ((((V1 & V2) & V3) & V4) & V5). subst nx. apply u8_add_1 in A.
      exists p, pm. split; [exact Hp|]. split; [apply (at_id_entry s L H); eauto|].
      split; [destruct A as [A|(A & B & D)]; auto|]. auto 8.
    - intros (p' & pm & Hp' & E & A & V2 & V3 & V4 & V5 & ->). rewrite Hp in Hp'. injection Hp' as <-.
      apply (at_id_entry s L H) in E as (x & E & M). rewrite E. cbn [ok_or bind]. unfold into_typed. rewrite M.
      cbn [as_mix or_panic bind]. apply bind_ok. exists (mx_index t). split.
      + apply u8_add_1. destruct A as [A|(A & B & D)]; auto.
      + apply seq_ok. split; [|reflexivity].
        rewrite fail_if_tt, negb_false_iff, !andb_true_iff, byte_eqb_eq, id_eqb_eq, !u_eqb_eq, ids_eqb_eq. auto 8.
  Qed.
  Lemma mix_input_iff dbg t ins :
    mix_input dbg s t = Ok ins <-> first_source L t ins \/ next_source dbg L t ins.
  Proof.
    unfold mix_input. destruct (mx_prev t) as [p|] eqn:E.
    - rewrite (mix_prev_iff dbg t p ins E). split; auto. intros [(X & _)|X]; [congruence|exact X].
    - rewrite (mix_first_iff t ins E). split; auto. intros [X|(p & pm & X & _)]; [exact X|congruence].
  Qed.

  Lemma validate_mix_iff dbg t : validate_mix dbg s t = Ok tt <-> ok_mix dbg L t.
  Proof.
    unfold validate_mix, ok_mix. split.
    - intros V. apply seq_ok in V as [A V]. rewrite fail_if_tt, negb_false_iff, id_eqb_eq in A.
      apply bind_ok in V as (e & B & V). apply (election_of_iff s L H) in B.
      apply seq_ok in V as [D V]. rewrite fail_if_tt in D. apply seq_ok in V as [F V].
      rewrite fail_if_tt, negb_false_iff, trustee_exists_iff in F.
      apply bind_ok in V as (pred & G & V). apply seq_ok in V as [I V].
      rewrite fail_if_tt, negb_false_iff, byte_eqb_eq in I. subst pred. apply u8_sub_1_iff in G.
      apply seq_ok in V as [J V]. rewrite fail_if_tt, negb_false_iff, Nat.eqb_eq in J.
      apply bind_ok in V as (ins & K & V). apply mix_input_iff in K. rewrite (h_get _ _ H) in V. cbn [lift bind] in V.
      apply bind_ok in V as (x & M & V). apply ok_or_ok in M. apply bind_ok in V as (k & N & V).
      apply or_panic_ok, as_enckey_iff in N. unfold verify_mix in V. rewrite fail_if_tt, negb_false_iff in V.
      split; [auto|]. split; [|split; [|split; [exact J|]]].
      + destruct (el_mix_config e) as [mc|] eqn:E; [|discriminate]. exists e, mc. auto.
      + destruct G as [G|(G1 & G2 & G3)]; auto.
      + exists ins, k. split; [exact K|]. split; [|exact V]. apply (at_id_entry s L H). eauto.
    - intros (A & (e & mc & B & D & F) & G & J & ins & k & K & N & V).
      apply seq_ok. split; [rewrite fail_if_tt, negb_false_iff, id_eqb_eq; auto|].
      apply bind_ok. exists e. split; [apply (election_of_iff s L H), B|].
      apply seq_ok. split; [rewrite D; reflexivity|].
      apply seq_ok. split; [rewrite fail_if_tt, negb_false_iff, trustee_exists_iff; exact F|].
      apply bind_ok. exists (mx_index t). split; [apply u8_sub_1_iff; destruct G as [G|(G1 & G2 & G3)]; auto|].
      apply seq_ok. split; [rewrite fail_if_tt, negb_false_iff, byte_eqb_eq; reflexivity|].
      apply seq_ok. split; [rewrite fail_if_tt, negb_false_iff, Nat.eqb_eq; exact J|].
      apply bind_ok. exists ins. split; [apply mix_input_iff, K|].
      rewrite (h_get _ _ H). cbn [lift bind]. apply (at_id_entry s L H) in N as (x & M & N).
      apply bind_ok. exists x. split; [apply ok_or_ok; exact M|].
      apply bind_ok. exists k. split; [unfold into_typed; rewrite N; reflexivity|].
      unfold verify_mix. rewrite fail_if_tt, negb_false_iff. exact V.
  Qed.
End Facts.
