(** * AuditFacts: replay of orderly histories. *)
From Verif Require Import Base BaseFacts Hex HexFacts Utf8 Cbor Ident BuildId IdentFacts Crypto Types Serde Store SpecStore StoreFacts
  Validate ValidateFacts SpecValid ValidFacts ValidFacts2 ValidFacts3 SpecHist HistFacts SpecMix MixFacts
  Exonum Api Audit SpecAudit.
From Coq Require Import Sorting.Sorted ZifyBool ZifyNat ZifyN.
Open Scope list_scope.

Lemma lt_by_type a b : id_election a = id_election b -> (u8v (tt_u8 (id_type a)) < u8v (tt_u8 (id_type b)))%N -> id_cmp a b = Lt.
Proof.
  intros E H. unfold id_cmp. rewrite E, lex_refl. assert (B : byte_cmp (tt_u8 (id_type a)) (tt_u8 (id_type b)) = Lt).
  { unfold byte_cmp. apply N.compare_lt_iff. exact H. }
  rewrite B. reflexivity.
Qed.
Lemma mix_lt e c b i j s t : (u8v i < u8v j)%N -> id_cmp (mix_build_id e c b i s) (mix_build_id e c b j t) = Lt.
Proof.
  intros H. unfold mix_build_id. rewrite !id_new_some. unfold id_cmp. cbn [id_election id_type id_unique].
  rewrite lex_refl, byte_cmp_refl. unfold mix_unique. cbn [arr_app arr_l]. rewrite !lex_app_same.
  cbn [arr1 arr_l app]. rewrite lex_cons.
  assert (B : byte_cmp i j = Lt) by (unfold byte_cmp; apply N.compare_lt_iff; exact H). rewrite B. reflexivity.
Qed.

Lemma head10 {n m} (a : arr (10 + n)) (b : arr (16 + m)) r :
  firstn 10 (firstn 10 (arr_l a) ++ r) = firstn 10 (firstn 16 (arr_l b)) -> firstn 10 (arr_l a) = firstn 10 (arr_l b).
Proof.
  intros U. rewrite firstn_app, !firstn_firstn in U.
  rewrite firstn_length_le in U by (rewrite arr_len; lia). rewrite Nat.sub_diag in U. rewrite app_nil_r in U. exact U.
Qed.

Section Facts.
  Context {C : Crypto}.

  Lemma asc_split L a x b y : ascending L -> L = a ++ x :: b -> (In y a <-> In y L /\ id_lt (s_id y) (s_id x)).
  Proof.
    intros H ->. split.
    - intros Hy. split; [apply in_or_app; left; exact Hy|]. induction a as [|z a IH]; [destruct Hy|].
      inversion H as [|? ? H1 H2]; subst. destruct Hy as [->|Hy]; [|apply IH; auto].
      rewrite Forall_forall in H2. apply H2, in_or_app. right. left. reflexivity.
    - intros [Hy Lt0]. apply in_app_or in Hy as [Hy|[->|Hy]]; [exact Hy| |].
      + exfalso. now apply id_lt_irrefl in Lt0.
      + exfalso. clear -H Hy Lt0. induction a as [|z a IH]; inversion H as [|? ? H1 H2]; subst; [|apply IH; auto].
        rewrite Forall_forall in H2. apply (id_lt_irrefl (s_id x)). eapply id_lt_trans; [apply H2, Hy|exact Lt0].
  Qed.

  Context (dbg : bool) (l : list STx) (E : arr 15 -> bool).
  Context (Hl : history dbg l) (O : orderly E l).
  Definition replayed : list STx := filter (fun x => E (id_election (s_id x))) (stored l).
  Lemma replayed_in y : In y replayed <-> In y l /\ mine E y.
  Proof. unfold replayed. rewrite filter_In, (hist_stored dbg l y Hl). reflexivity. Qed.
  Lemma replayed_asc : ascending replayed.
  Proof. apply asc_filter, stored_asc. Qed.

  Section One.
    Context (S1 S2 : list STx) (x : STx) (HS : replayed = S1 ++ x :: S2).
    Context (p q : list STx) (Ep : l = p ++ x :: q).
    Lemma S1_in y : In y S1 <-> In y l /\ mine E y /\ id_lt (s_id y) (s_id x).
    Proof. rewrite (asc_split _ _ _ _ y replayed_asc HS), replayed_in. tauto. Qed.
    Lemma x_in : In x l /\ mine E x.
    Proof. apply replayed_in. rewrite HS. apply in_or_app. right. left. reflexivity. Qed.
    Lemma S1_asc : ascending S1.
    Proof.
      pose proof replayed_asc as A. rewrite HS in A. clear -A. induction S1 as [|z a IH]; [constructor|].
      inversion A as [|? ? H1 H2]; subst. constructor; [apply IH, H1|]. apply Forall_app in H2. tauto.
    Qed.
    Lemma S1_stored : stored S1 = S1.
    Proof.
      apply asc_ext; [apply stored_asc|exact S1_asc|]. intros y. apply stored_in, asc_nodup, S1_asc.
    Qed.
    Lemma p_in y : In y p -> In y l.
    Proof. intros H. rewrite Ep. apply in_or_app. left. exact H. Qed.

    (** a smaller entry of the same election is replayed before *)
    Lemma keep i t : at_id (stored p) i t -> id_election i = id_election (s_id x) ->
      (u8v (tt_u8 (id_type i)) < u8v (tt_u8 (id_type (s_id x))))%N -> at_id S1 i t.
    Proof.
      intros (y & Hy & Ey & Ty) Ei Lt0. pose proof (proj1 (hist_at dbg p x q (eq_ind _ _ Hl _ Ep))) as Hp.
      apply (hist_stored dbg p y Hp) in Hy. exists y. split; [|auto]. apply S1_in. split; [apply p_in, Hy|].
      destruct x_in as [_ Hm]. split; [unfold mine in *; rewrite Ey, Ei; exact Hm|]. rewrite Ey. apply lt_by_type; assumption.
    Qed.
    Lemma keep_lt i t : at_id (stored p) i t -> id_election i = id_election (s_id x) -> id_lt i (s_id x) -> at_id S1 i t.
    Proof.
      intros (y & Hy & Ey & Ty) Ei Lt0. pose proof (proj1 (hist_at dbg p x q (eq_ind _ _ Hl _ Ep))) as Hp.
      apply (hist_stored dbg p y Hp) in Hy. exists y. split; [|auto]. apply S1_in. split; [apply p_in, Hy|].
      destruct x_in as [_ Hm]. split; [unfold mine in *; rewrite Ey, Ei; exact Hm|]. rewrite Ey. exact Lt0.
    Qed.
    Lemma keep_occ i : occupied (stored p) i -> id_election i = id_election (s_id x) ->
      (u8v (tt_u8 (id_type i)) < u8v (tt_u8 (id_type (s_id x))))%N -> occupied S1 i.
    Proof.
      intros (y & Hy & Ey) Ei Lt0. destruct (keep i (s_tx y)) as (z & Hz & Ez & _); eauto; [exists y; auto|].
      exists z. auto.
    Qed.
    Lemma typed_at i t : at_id (stored p) i t -> id_type i = tx_type t.
    Proof.
      intros (y & Hy & Ey & Ty). pose proof (proj1 (hist_at dbg p x q (eq_ind _ _ Hl _ Ep))) as Hp.
      apply (hist_stored dbg p y Hp) in Hy. pose proof (hist_typed dbg p y Hp Hy) as T. unfold s_type in T. congruence.
    Qed.
    Lemma keep_list e ty : id_election e = id_election (s_id x) ->
      (u8v (tt_u8 ty) < u8v (tt_u8 (id_type (s_id x))))%N ->
      (forall y, In y q -> id_type (s_id y) = ty -> ~ same_election x y) ->
      listed (stored p) e ty = listed S1 e ty.
    Proof.
      intros Ee Lt0 Nq. pose proof (proj1 (hist_at dbg p x q (eq_ind _ _ Hl _ Ep))) as Hp.
      apply asc_ext; [apply listed_asc, stored_asc|apply listed_asc, S1_asc|]. intros y. rewrite !listed_in.
      rewrite (hist_stored dbg p y Hp), S1_in. destruct x_in as [_ Hm]. split.
      - intros (A & B & D). split; [|auto]. split; [apply p_in, A|]. split.
        + unfold mine in *. rewrite B, Ee. exact Hm.
        + apply lt_by_type; [congruence|rewrite D; exact Lt0].
      - intros ((A & B & D) & F & G). split; [|auto]. rewrite Ep in A. apply in_app_or in A as [A|[<-|A]]; [exact A| |].
        + exfalso. now apply id_lt_irrefl in D.
        + exfalso. apply (Nq y A G). unfold same_election. congruence.
    Qed.

    Lemma el_keep i el : at_id (stored p) i (XElection el) -> id_election i = id_election (s_id x) ->
      id_type (s_id x) <> TElection -> at_id S1 i (XElection el).
    Proof.
      intros H Ei N. apply keep; auto. rewrite (typed_at _ _ H). cbn [tx_type].
      destruct (id_type (s_id x)); try congruence; vm_compute; reflexivity.
    Qed.
    Lemma row_keep el up i c row : row_at (stored p) el up i c row -> id_election up = id_election (s_id x) ->
      id_type (s_id x) = TPartialDecryption \/ id_type (s_id x) = TDecryption -> row_at S1 el up i c row.
    Proof.
      intros [(A & B & D & v & ev & F & G & R)|(A & B & m & F & D)] Eu T.
      - left. split; [exact A|]. split; [exact B|]. split; [exact D|]. exists v, ev. split; [|auto].
        apply keep; auto. rewrite A. destruct T as [-> | ->]; vm_compute; reflexivity.
      - right. split; [exact A|]. split; [exact B|]. exists m. split; [|exact D].
        apply keep; auto. rewrite A. destruct T as [-> | ->]; vm_compute; reflexivity.
    Qed.

    Lemma replay_one : validate dbg (ms_store (ms_from p)) x = Ok tt -> validate dbg (ms_store (ms_from S1)) x = Ok tt.
    Proof.
      intros V. pose proof (proj1 (hist_at dbg p x q (eq_ind _ _ Hl _ Ep))) as Hp.
      destruct x_in as [Hx Hm]. pose proof (or_slot _ _ O x Hx Hm) as Es.
      apply (validate_iff _ _ (stored_holds p)) in V as (Ty & Sg & V).
      apply (validate_iff _ _ (stored_holds S1)). rewrite S1_stored. split; [exact Ty|]. split; [exact Sg|].
      unfold s_type in Ty. destruct (s_tx x) as [t|t|t|t|t|t|t|t|t|t] eqn:Tx; cbn [ok_tx tx_election tx_type] in *.
      - exact V.
      - destruct V as (el & A & B). exists el. split; [|exact B]. apply el_keep; congruence.
      - destruct V as (el & A & B). exists el. split; [|exact B]. apply el_keep; congruence.
      - destruct V as (el & A & B). exists el. split; [|exact B]. apply el_keep; congruence.
      - destruct V as (el & pks & A & B & R & D). exists el, pks. split; [apply el_keep; congruence|]. split; [exact B|].
        split; [|exact D]. unfold range_is in *. rewrite <- keep_list; auto.
        + rewrite Ty. vm_compute. reflexivity.
        + intros y Hy Yt. apply (or_keys _ _ O p x q y Ep Hy Hm); [left; unfold s_type; rewrite Tx; reflexivity|].
          assert (In y l) as Hyl by (rewrite Ep; apply in_or_app; right; right; exact Hy).
          rewrite <- (hist_typed dbg l y Hl Hyl). exact Yt.
      - destruct V as (el & A & B & Nc & Ek & Ne & Au & Bl). exists el. split; [apply el_keep; congruence|].
        split; [exact B|]. split; [|split; [|split; [|auto]]].
        + intros y Hy (K1 & K2 & K3). apply S1_in in Hy as (Y1 & Y2 & Y3).
          pose proof (hist_typed dbg l y Hl Y1) as Yt. rewrite K2 in Yt. unfold s_type in Yt.
          destruct (s_tx y) as [w|w|w|w|w|w|w|w|w|w] eqn:Tyy; try discriminate Yt.
          destruct (hist_accepted dbg l y Hl Y1) as (p' & q' & _ & Hp' & _ & V').
          apply (validate_iff _ _ (stored_holds p')) in V' as (_ & _ & V'). rewrite Tyy in V'. cbn [ok_tx] in V'.
          destruct V' as (el' & _ & (_ & _ & U) & _).
          assert (Ey : s_id y = vt_id w) by (unfold s_id; rewrite Tyy; reflexivity). rewrite <- Ey, K3 in U.
          assert (X : y = x).
          { apply (or_votes _ _ O y x w t); auto.
            - unfold same_election. congruence.
            - apply (f_equal (firstn 10)) in U. apply (@head10 22 16) in U. symmetry. exact U. }
          subst y. now apply id_lt_irrefl in Y3.
        + apply keep_occ; [exact Ek|cbn [slot0 id_election]; congruence|]. rewrite Ty. vm_compute. reflexivity.
        + intros (y & Hy & Ey). apply S1_in in Hy as (_ & _ & Y3). rewrite Ey in Y3.
          assert (X : id_cmp (s_id x) (slot0 (vt_election t) TVotingEnd) = Lt).
          { apply lt_by_type; [cbn [slot0 id_election]; congruence|]. rewrite Ty. vm_compute. reflexivity. }
          apply (id_lt_irrefl (s_id x)). eapply id_lt_trans; [exact X|exact Y3].
      - destruct V as (el & A & B). exists el. split; [|exact B]. apply el_keep; congruence.
      - destruct V as (Eid & (el & mc & A & B) & Tr & Le & ins & k & Src & Hk & Sh).
        split; [exact Eid|]. split; [exists el, mc; split; [apply el_keep; congruence|exact B]|].
        split; [exact Tr|]. split; [exact Le|]. exists ins, k. split; [|split; [|exact Sh]].
        + destruct Src as [(P & I0 & vs & R & Ev & Ei)|Nx].
          * left. split; [exact P|]. split; [exact I0|]. exists vs. unfold range_is in *.
            rewrite <- keep_list; auto.
            -- rewrite Ty. vm_compute. reflexivity.
            -- intros y Hy Yt. apply (or_mix _ _ O p x q y t Ep Hy Hm Tx P).
               assert (In y l) as Hyl by (rewrite Ep; apply in_or_app; right; right; exact Hy).
               rewrite <- (hist_typed dbg l y Hl Hyl). exact Yt.
          * right. destruct Nx as (pi & pm & P & Hpm & Hi & E1 & E2 & E3 & E4 & Ei).
            exists pi, pm. split; [exact P|]. split; [|auto 10].
            assert (Epi : pi = mx_id pm).
            { destruct Hpm as (z & _ & Ez & Tz). rewrite <- Ez. unfold s_id. rewrite Tz. reflexivity. }
            assert (Ix : (u8v (mx_index t) = u8v (mx_index pm) + 1)%N).
            { destruct Hi as [Hi|(_ & _ & Hi)]; [exact Hi|exfalso].
              destruct (mix_chain dbg l Hl t) as (m0 & Hc).
              { exists x. split; [exact Hx|]. split; [unfold s_id; rewrite Tx; reflexivity|exact Tx]. }
              inversion Hc; subst; [congruence|].
              match goal with I' : u8v (mx_index t) = (_ + 1)%N |- _ => rewrite Hi in I'; change (u8v x00) with 0%N in I'; lia end. }
            assert (Ep' : mx_id pm = mix_build_id (mx_election pm) (mx_contest pm) (mx_batch pm) (mx_index pm) (mx_trustee pm)).
            { destruct Hpm as (z & Hz & Ez & Tz). apply (hist_stored dbg p z Hp) in Hz.
              destruct (hist_accepted dbg p z Hp Hz) as (a & b & _ & _ & _ & Vz).
              apply (mix_accepted dbg _ _ z pm (stored_holds a) Tz) in Vz as (Vz & _). exact Vz. }
            assert (Ex : s_id x = mx_id t) by (unfold s_id; rewrite Tx; reflexivity).
            apply keep_lt; [exact Hpm| |].
            -- rewrite Epi, Ep', <- E1, Ex, Eid. reflexivity.
            -- unfold id_lt. rewrite Epi, Ep', <- E1, <- E2, <- E3, Ex, Eid. apply mix_lt. lia.
        + apply keep; [exact Hk|cbn [slot0 id_election]; congruence|]. rewrite Ty. vm_compute. reflexivity.
      - destruct V as (el & row & pk & A & B & Eid & Ve & R & Kp & D).
        pose proof (or_partial _ _ O x t Hx Hm Tx) as Eu.
        exists el, row, pk. split; [apply el_keep; congruence|]. split; [exact B|]. split; [exact Eid|]. split; [|split; [|split; [|exact D]]].
        + apply keep_occ; [exact Ve|cbn [slot0 id_election]; congruence|]. rewrite Ty. vm_compute. reflexivity.
        + apply row_keep; [exact R|congruence|auto].
        + apply keep; [exact Kp|unfold pubkey_build_id; rewrite id_new_some; cbn [id_election]; congruence|].
          rewrite Ty. vm_compute. reflexivity.
      - destruct V as (el & row & pks & parts & A & Eid & R & Rg & Fp & D).
        pose proof (or_decryption _ _ O x t Hx Hm Tx) as Eu.
        exists el, row, pks, parts. split; [apply el_keep; congruence|]. split; [exact Eid|]. split; [|split; [|split; [|exact D]]].
        + apply row_keep; [exact R|congruence|auto].
        + unfold range_is in *. rewrite <- keep_list; auto.
          * rewrite Ty. vm_compute. reflexivity.
          * intros y Hy Yt. apply (or_keys _ _ O p x q y Ep Hy Hm); [right; unfold s_type; rewrite Tx; reflexivity|].
            assert (In y l) as Hyl by (rewrite Ep; apply in_or_app; right; right; exact Hy).
            rewrite <- (hist_typed dbg l y Hl Hyl). exact Yt.
        + clear -Fp Es Ty Hl Ep HS. induction Fp as [|i pt ids ps [T P] _ IH]; constructor; [|exact IH]. split; [exact T|].
          apply keep; [exact P|unfold partial_build_id; rewrite id_new_some; cbn [id_election]; congruence|].
          rewrite Ty. vm_compute. reflexivity.
    Qed.
  End One.

  Lemma audit_all S2 : forall S1, replayed = S1 ++ S2 -> audit_from dbg (ms_from S1) S2 = Ok (ms_from replayed).
  Proof.
    induction S2 as [|x S2 IH]; intros S1 HS; cbn [audit_from].
    - rewrite app_nil_r in HS. rewrite HS. reflexivity.
    - assert (Hx : In x l) by (apply replayed_in; rewrite HS; apply in_or_app; right; left; reflexivity).
      destruct (hist_accepted dbg l x Hl Hx) as (p & q & Ep & _ & _ & V).
      rewrite (replay_one S1 S2 x HS p q Ep V). cbn [bind map_err].
      replace (ms_set (ms_from S1) x) with (ms_from (S1 ++ [x])).
      + apply IH. rewrite <- app_assoc. exact HS.
      + unfold ms_from. rewrite fold_left_app. reflexivity.
  Qed.
  Lemma first_is_election x S2 : replayed = x :: S2 -> s_type x = TElection.
  Proof.
    intros HS. assert (A : In x l /\ mine E x) by (apply replayed_in; rewrite HS; left; reflexivity). destruct A as [Hx Hm].
    destruct (hist_accepted dbg l x Hl Hx) as (p & q & Ep & Hp & _ & V).
    pose proof (or_slot _ _ O x Hx Hm) as Es. pose proof (replay_one [] S2 x HS p q Ep V) as V'.
    apply (validate_iff _ _ (stored_holds [])) in V' as (_ & _ & V').
    assert (G : forall i t, ~ at_id (stored []) i t) by (intros i t (y & [] & _)).
    unfold s_type. destruct (s_tx x) as [t|t|t|t|t|t|t|t|t|t]; cbn [ok_tx] in V'; [reflexivity|exfalso..].
    - destruct V' as (el & A & _). exact (G _ _ A).
    - destruct V' as (el & A & _). exact (G _ _ A).
    - destruct V' as (el & A & _). exact (G _ _ A).
    - destruct V' as (el & pks & A & _). exact (G _ _ A).
    - destruct V' as (el & A & _). exact (G _ _ A).
    - destruct V' as (el & A & _). exact (G _ _ A).
    - destruct V' as (_ & (el & mc & A & _) & _). exact (G _ _ A).
    - destruct V' as (el & row & pk & A & _). exact (G _ _ A).
    - destruct V' as (el & row & pks & parts & A & _). exact (G _ _ A).
  Qed.
  Theorem audit_ok : (exists x, In x l /\ mine E x) -> audit dbg replayed = Ok (ms_from replayed).
  Proof.
    intros (x & Hx). apply replayed_in in Hx. pose proof (audit_all replayed [] eq_refl) as A.
    unfold audit. destruct replayed as [|y S2] eqn:HS; [destruct Hx|].
    rewrite (first_is_election y S2 HS). cbn [tt_eqb negb fail_if bind]. exact A.
  Qed.
End Facts.
