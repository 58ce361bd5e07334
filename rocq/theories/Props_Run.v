(** * C70-C74: an election run by honest participants, from the first transaction to the published votes. *)
From Verif Require Import Base BaseFacts HexFacts Utf8 Cbor Ident BuildId IdentFacts Crypto Types Serde Store SpecStore StoreFacts
  Prost Validate ValidateFacts SpecValid SpecHist HistFacts Encrypt Trustee Tasks SpecTasks SpecService SpecThreshold
  Lagrange ThresholdFacts SpecRun RunFacts SpecSerde SpecCli SpecOutcome Toy ToyT ToyE Scene Props_Threshold.
From Coq Require Import Strings.String ZifyBool ZifyNat ZifyN Sorting.Permutation.
Import List ListNotations.
Open Scope list_scope.

Section Props.
  Context {C : Crypto} {TC : TCrypto} {K : Fld} {M : Mdl} (S : threshold_scheme K M).
  Context {R : Type} (eg : EGPublicKey -> R -> bytes -> Ciphertext * R).
  (** what is assumed of the cryptography; the last three only if the election has a mixnet *)
  Record laws (el : ElectionTx) : Prop := {
    la_dh : dh_agrees;
    la_gcm : gcm_opens;
    la_scalar : scalar_faithful;
    la_sign : ed_sign_verifies;
    la_encrypt : encrypting S eg;
    la_shuffles : el_mix_config el <> None -> shuffles;
    la_verifies : el_mix_config el <> None -> shuffle_verifies;
    la_reencrypts : el_mix_config el <> None -> reencrypting S
  }.

  Section Election.
    Variables (dbg : bool) (el : ElectionTx) (T : people) (contests : list u32).
    Notation e := (el_id el).
    Notation honest := (honest eg dbg el T contests).

    (** ** C70: whatever an honest node answers is accepted, whenever it arrives and whatever was
        recorded in the meantime *)
    Theorem C70_answers_accepted : laws el -> set_up el T contests ->
      forall h1 h2 sk r x l y, honest (h1 ++ h2) -> node el T sk -> In x h1 -> inside el x ->
      generate_transactions dbg sk r (ms_store (ms_from h1)) x = Ok l -> In y l ->
      occupied (h1 ++ h2) (s_id y) \/ validate dbg (ms_store (ms_from (h1 ++ h2))) y = Ok tt.
    Proof.
      intros L SU h1 h2 sk r x l y Ho Nd Ix Ins G Iy. destruct (occupied_dec (h1 ++ h2) (s_id y)) as [O|O]; [left; exact O|right].
      assert (Fr : fresh (h1 ++ h2) (s_id y)) by (intros w Iw Ew; apply O; exists w; auto).
      pose proof (honest_history S (la_dh _ L) (la_gcm _ L) (la_scalar _ L) (la_sign _ L) eg dbg el T contests SU (la_verifies _ L)
                    _ (ho_node _ _ _ _ _ h1 h2 sk r x l y Ho Nd Ix Ins G Iy Fr)) as Hh.
      inversion Hh as [E|h0 x0 H0 F0 V0 E]; [destruct (h1 ++ h2); discriminate E|]. apply app_inj_tail in E as [-> ->]. exact V0.
    Qed.
    Theorem C70_history : laws el -> set_up el T contests -> forall h, honest h -> history dbg h.
    Proof.
      intros L SU h. exact (honest_history S (la_dh _ L) (la_gcm _ L) (la_scalar _ L) (la_sign _ L) eg dbg el T contests SU (la_verifies _ L) h).
    Qed.

    (** ** C71: no node stops: every transaction of the election can be answered at any time *)
    Theorem C71_never_stopped : laws el -> set_up el T contests ->
      forall h x sk r, honest h -> In x h -> inside el x -> node el T sk ->
      exists l, generate_transactions dbg sk r (ms_store (ms_from h)) x = Ok l.
    Proof.
      intros L SU h x sk r Ho. exact (never_stopped S (la_dh _ L) (la_gcm _ L) (la_scalar _ L) (la_sign _ L) eg (la_encrypt _ L) dbg el T contests SU
        (la_verifies _ L) (la_reencrypts _ L) h x sk r Ho (la_shuffles _ L)).
    Qed.
    (** so that from any ledger one is reached where everything is answered *)
    Theorem C71_never_stuck : laws el -> set_up el T contests ->
      forall (r : Rnd) ns h, honest h -> (forall sk, In sk ns -> node el T sk) ->
      exists h', honest (h ++ h') /\ forall x sk, In x (h ++ h') -> inside el x -> In sk ns -> answers dbg (h ++ h') sk x.
    Proof.
      intros L SU r ns h Ho. exact (never_stuck S (la_dh _ L) (la_gcm _ L) (la_scalar _ L) (la_sign _ L) eg (la_encrypt _ L) dbg el T contests SU
        (la_verifies _ L) (la_reencrypts _ L) r ns h Ho (la_shuffles _ L)).
    Qed.

    (** ** C72: when all trustees and the authority have answered, the encryption key is recorded: it is
        the joint key of the trustees, and every trustee has recorded the same one *)
    Theorem C72_key_recorded : laws el -> set_up el T contests ->
      forall h sk, honest h -> keys_answered dbg el T sk h ->
      exists k, at_id h (slot0 e TEncryptionKey) (XEncryptionKey k) /\ ek_key k = ts_key S (joint_key S T e)
        /\ forall p, In p T -> exists q, at_id h (pubkey_build_id e (tr_index (fst p))) (XPublicKey q)
             /\ kp_key q = ek_key k /\ kp_public q = tr_public_key (fst p).
    Proof.
      intros L SU h sk Ho Ka.
      destruct (keys_made S (la_dh _ L) (la_gcm _ L) (la_scalar _ L) (la_sign _ L) eg dbg el T contests SU (la_verifies _ L) h sk Ho Ka)
        as (Ke & _ & pks & Dp). eexists. split; [exact Ke|]. split; [reflexivity|].
      intros p Ip. destruct Dp as (shs & _ & F). destruct (DecryptFacts.Forall2_in_l _ _ _ _ F Ip) as (q & _ & (l & pf & _ & _ & ->) & At).
      exists (pubkey_tx S el T p pf). split; [exact At|]. split; reflexivity.
    Qed.

    (** ** C73: when voting has ended and a quorum has answered, the recorded decryptions of every
        contest are exactly the votes that were cast for it *)
    Theorem C73_published : laws el -> set_up el T contests ->
      forall h Q k c, honest h -> ended el h -> quorum dbg el T Q h ->
      at_id h (slot0 e TEncryptionKey) (XEncryptionKey k) ->
      (exists cast, Forall2 (encrypted eg (ek_key k)) (ballots el h c) cast)
      /\ forall cast, Forall2 (encrypted eg (ek_key k)) (ballots el h c) cast ->
           Permutation (map dc_vote (decryptions_of el h c)) cast.
    Proof.
      intros L SU h Q k c Ho Ed Qu Ke.
      pose proof (honest_history S (la_dh _ L) (la_gcm _ L) (la_scalar _ L) (la_sign _ L) eg dbg el T contests SU (la_verifies _ L) h Ho) as Hh.
      destruct (at_enckey S (la_dh _ L) (la_gcm _ L) (la_scalar _ L) eg dbg el T contests SU h k Ho Hh Ke) as [-> _].
      exact (published_votes S (la_dh _ L) (la_gcm _ L) (la_scalar _ L) (la_sign _ L) eg (la_encrypt _ L) dbg el T contests SU
               (la_verifies _ L) (la_reencrypts _ L) h Q c Ho Ed Qu).
    Qed.

    (** ** C74: once voting has ended, the election can always be finished: the nodes of the trustees
        alone, answering what is recorded, bring the ledger to a state where what is published is what
        was cast *)
    Lemma ballots_frozen : laws el -> set_up el T contests -> forall h h' c, honest (h ++ h') -> ended el h ->
      ballots el (h ++ h') c = ballots el h c.
    Proof.
      intros L SU h h' c Ho Ed. pose proof (C70_history L SU _ Ho) as Hh. unfold ballots, votes_of. rewrite !flat_map_app.
      assert (N0 : votes_of el h' = []); [|unfold votes_of in N0; rewrite N0, app_nil_r; reflexivity].
      destruct (votes_of el h') as [|v vs] eqn:E; [reflexivity|exfalso].
      assert (Iv : In v (votes_of el h')) by (rewrite E; left; reflexivity). apply votes_of_in in Iv as (x & Ix & Tx & Ev).
      apply (MixFacts.no_vote_after_end dbg h h' e Hh Ed x Ix). apply in_split in Ix as (a & b & ->).
      rewrite app_assoc in Hh. apply hist_at in Hh as (_ & _ & V). apply (ValidFacts3.validate_iff _ _ (stored_holds (h ++ a))) in V as (Ty & _ & V).
      rewrite Tx in V. destruct V as (el' & _ & (I1 & _) & _). split.
      - unfold s_id. rewrite Tx. cbn [tx_id]. rewrite I1, Ev. reflexivity.
      - rewrite Ty. unfold s_type. rewrite Tx. reflexivity.
    Qed.
    Theorem C74_can_finish : laws el -> set_up el T contests ->
      forall (r : Rnd) h k, honest h -> ended el h -> at_id h (slot0 e TEncryptionKey) (XEncryptionKey k) ->
      exists h', honest (h ++ h') /\ forall c cast, Forall2 (encrypted eg (ek_key k)) (ballots el h c) cast ->
        Permutation (map dc_vote (decryptions_of el (h ++ h') c)) cast.
    Proof.
      intros L SU r h k Ho Ed Ke. destruct (C71_never_stuck L SU r (map snd T) h Ho) as (h' & Ho' & An).
      { intros sk I. apply in_map_iff in I as (p & <- & I). left. exists p. auto. }
      exists h'. split; [exact Ho'|]. intros c cast Ca.
      assert (Qu : quorum dbg el T T (h ++ h')).
      { destruct (su_ceremony _ _ _ SU) as [Di Ra _ _ Qm]. split.
        - apply incl_refl.
        - apply (NoDup_map_inv (fun p => tr_index (fst p))), Di.
        - apply Qm.
        - intros _. assert (In x01 (map (fun p => tr_index (fst p)) T)).
          { assert (Inc : incl (map u8_of (map N.of_nat (seq 1 (length T)))) (map (fun p => tr_index (fst p)) T)).
            { apply NoDup_length_incl; [exact Di|rewrite !map_length, seq_length; lia|].
              intros b Ib. apply in_map_iff in Ib as (p & <- & Ip). pose proof (Ra p Ip) as B. apply in_map_iff. exists (u8v (tr_index (fst p))).
              split; [apply u8_of_u8v|]. apply in_map_iff. exists (N.to_nat (u8v (tr_index (fst p)))). split; [lia|]. apply in_seq. lia. }
            apply Inc. apply in_map_iff. exists 1%N. split; [reflexivity|]. apply in_map_iff. exists 1. split; [reflexivity|]. apply in_seq. lia. }
          apply in_map_iff in H as (p & E & I). exists p. auto.
        - intros x p Ix Ins Ip. assert (A : answers dbg (h ++ h') (snd p) x) by (apply An; [exact Ix|exact Ins|apply in_map, Ip]).
          destruct (s_tx x); (exact A || exact I). }
      assert (Ed' : ended el (h ++ h')) by (destruct Ed as (x & Ix & Ex); exists x; split; [apply in_or_app; left; exact Ix|exact Ex]).
      assert (Ke' : at_id (h ++ h') (slot0 e TEncryptionKey) (XEncryptionKey k)) by (destruct Ke as (x & Ix & Ex); exists x; split; [apply in_or_app; left; exact Ix|exact Ex]).
      apply (proj2 (C73_published L SU (h ++ h') T k c Ho' Ed' Qu Ke')). rewrite (ballots_frozen L SU h h' c Ho' Ed). exact Ca.
    Qed.
  End Election.
End Props.

(** ** Concrete cases: two elections over the integers modulo 257, run by the nodes *)
Section Case.
  Local Existing Instance ToyE.
  Local Existing Instance ToyET.
  Local Existing Instance Fq.
  Local Existing Instance Gq.
  Lemma e_sign_verifies : @ed_sign_verifies ToyE.
  Proof. intros sk m. apply arr_eqb_eq. reflexivity. Qed.
  Lemma e_shuffles : @shuffles ToyE ToyET.
  Proof. intros seed ins key rnd. cbn [shuffle ToyET]. rewrite N.eqb_refl. discriminate. Qed.
  Lemma e_shuffle_verifies : @shuffle_verifies ToyE ToyET.
  Proof.
    intros seed n ins key rnd outs proof. cbn [shuffle ToyET]. destruct (n =? _)%N eqn:E; [|discriminate].
    intros X. injection X as <- <-. split; [rewrite rev_length, map_length; reflexivity|].
    cbn [shuffle_verify ToyE any sv q_proof hex_text]. rewrite hex_decode_encode. apply andb_true_intro. split.
    - apply andb_true_intro. split; [apply bytes_eqb_eq; reflexivity|exact E].
    - apply rowsv_eqb_eq. rewrite map_rev, !map_map. f_equal. apply map_ext. intros row. rewrite map_map. reflexivity.
  Qed.
  Example C70_laws el : laws toy_scheme e_encrypt el.
  Proof.
    split; try intros _; [exact e_dh_agrees|exact e_gcm_opens|exact e_scalar_faithful|exact e_sign_verifies|exact e_encrypting
      |exact e_shuffles|exact e_shuffle_verifies|exact e_reencrypting].
  Qed.

  (** a ledger written by steps: [Node n w i j] records the [j]th answer of node [w] to the [i]th
      transaction, when the ledger had [n] transactions *)
  Inductive step := Node (n w i j : nat) | Cast (k : byte) (entries : list (u32 * list Selection * nat)) | Close.
  Section Steps.
    Variables (el : ElectionTx) (T : people) (contests : list u32) (auth : byte).
    Notation e := (el_id el).
    Definition secret_of (w : nat) : arr 32 := match nth_error T w with Some p => snd p | None => key_of auth end.
    Definition sgnR (k : byte) (t : Tx) : STx := mk_stx t (@ed_sign ToyE (key_of k) (tx_bytes t)).
    Definition recorded_key (h : list STx) : option EGPublicKey :=
      match find (fun x => id_eqb (s_id x) (slot0 e TEncryptionKey)) h with
      | Some x => match s_tx x with XEncryptionKey k => Some (ek_key k) | _ => None end
      | None => None
      end.
    Definition entry_of (key : EGPublicKey) (x : u32 * list Selection * nat) : EncryptedVote :=
      mk_encvote (fst (fst x)) (fst (encrypt_vote e_encrypt key (snd (fst x)) (snd x))).
    Definition freshb (h : list STx) (i : Identifier) : bool := forallb (fun y => negb (id_eqb (s_id y) i)) h.
    Definition acceptb (h : list STx) (x : STx) : bool :=
      freshb h (s_id x) && match validate true (ms_store (ms_from h)) x with Ok tt => true | _ => false end.
    Fixpoint u32s_eqb (a b : list u32) : bool :=
      match a, b with [], [] => true | x :: a', y :: b' => u_eqb x y && u32s_eqb a' b' | _, _ => false end.
    Fixpoint u32s_nodup (a : list u32) : bool :=
      match a with [] => true | x :: a' => negb (existsb (u_eqb x) a') && u32s_nodup a' end.
    Definition apartb (h : list STx) (k : byte) : bool :=
      forallb (fun x => negb (tt_eqb (id_type (s_id x)) TVote)
                        || negb (bytes_eqb (firstn 10 (arr_l (id_unique (s_id x)))) (firstn 10 (arr_l (key_of k))))) h.
    Definition writableb (s : Selection) : bool := (N.of_nat (List.length (sv (sel_text s))) <? 2 ^ 64)%N.
    Definition step_of (h : list STx) (s : step) : option STx :=
      match s with
      | Node n w i j =>
          match nth_error (firstn n h) i with
          | Some x =>
              if arr_eqb (id_election (s_id x)) (id_election e)
              then match generate_transactions true (secret_of w) rnd0 (ms_store (ms_from (firstn n h))) x with
                   | Ok l => match nth_error l j with Some y => if freshb h (s_id y) then Some y else None | None => None end
                   | _ => None
                   end
              else None
          | None => None
          end
      | Cast k entries =>
          match recorded_key h with
          | Some key =>
              let x := sgnR k (XVote (mk_vote (vote_build_id e (key_of k)) e b1 (map (entry_of key) entries) (any (key_of k)) [])) in
              let cs := map (fun y => fst (fst y)) entries in
              if acceptb h x && u32s_nodup cs && apartb h k && forallb (fun y => forallb writableb (snd (fst y))) entries
                 && match el_mix_config el with Some _ => u32s_eqb cs contests && (N.of_nat (length h) <? 65535)%N | None => true end
              then Some x else None
          | None => None
          end
      | Close =>
          let x := sgnR auth (XVotingEnd (mk_votingend (votingend_build_id e) e (any (key_of auth)))) in
          match recorded_key h with Some _ => if acceptb h x then Some x else None | None => None end
      end.
    Fixpoint steps_from (h : list STx) (l : list step) : option (list STx) :=
      match l with [] => Some h | s :: l' => match step_of h s with Some y => steps_from (h ++ [y]) l' | None => None end end.
    Definition first : STx := sgnR auth (XElection el).
    Definition runs (l : list step) : option (list STx) := if acceptb [] first then steps_from [first] l else None.

    Hypothesis au : el_authority el = @ed_public ToyE (key_of auth).
    Hypothesis au_T : forall p, In p T -> tr_public_key (fst p) <> el_authority el.
    Lemma freshb_ok h i : freshb h i = true -> fresh h i.
    Proof. intros H y Iy Ey. unfold freshb in H. rewrite forallb_forall in H. specialize (H y Iy). apply id_eqb_eq in Ey. rewrite Ey in H. discriminate H. Qed.
    Lemma acceptb_ok h x : acceptb h x = true -> fresh h (s_id x) /\ validate true (ms_store (ms_from h)) x = Ok tt.
    Proof.
      intros H. apply andb_true_iff in H as [A B]. split; [apply freshb_ok, A|]. destruct (validate true _ x) as [[]|?|?]; [reflexivity|discriminate B|discriminate B].
    Qed.
    Lemma node_of w : node el T (secret_of w).
    Proof.
      unfold secret_of. destruct (nth_error T w) as [p|] eqn:E; [left; exists p; split; [apply (nth_error_In _ _ E)|reflexivity]|].
      right. split; [symmetry; exact au|]. intros p Ip Ek. exfalso. apply (au_T p Ip). rewrite Ek. symmetry. exact au.
    Qed.
    Lemma recorded_at h key : recorded_key h = Some key -> exists k, at_id h (slot0 e TEncryptionKey) (XEncryptionKey k) /\ ek_key k = key.
    Proof.
      unfold recorded_key. destruct (find _ h) as [x|] eqn:F; [|discriminate]. apply find_some in F as [Ix Ex]. apply id_eqb_eq in Ex.
      destruct (s_tx x) as [t|t|t|t|t|t|t|t|t|t] eqn:Tx; try discriminate. intros X. injection X as <-. exists t. split; [|reflexivity]. exists x. auto.
    Qed.
    Lemma u32s_eqb_ok a : forall b, u32s_eqb a b = true -> a = b.
    Proof.
      induction a as [|x a IH]; intros [|y b]; cbn [u32s_eqb]; try discriminate; [reflexivity|]. intros H. apply andb_true_iff in H as [A B].
      apply u_eqb_eq in A. f_equal; [exact A|apply IH, B].
    Qed.
    Lemma u32s_nodup_ok a : u32s_nodup a = true -> NoDup a.
    Proof.
      induction a as [|x a IH]; [constructor|]. cbn [u32s_nodup]. intros H. apply andb_true_iff in H as [A B]. constructor; [|apply IH, B].
      intros I. apply negb_true_iff in A. assert (existsb (u_eqb x) a = true); [|congruence]. apply existsb_exists. exists x. split; [exact I|].
      apply u_eqb_eq. reflexivity.
    Qed.
    Lemma cast_voter h k entries y : step_of h (Cast k entries) = Some y ->
      (exists v, s_tx y = XVote v /\ voter e_encrypt el contests h v) /\ fresh h (s_id y) /\ validate true (ms_store (ms_from h)) y = Ok tt.
    Proof.
      cbn [step_of]. destruct (recorded_key h) as [key|] eqn:Rk; [|discriminate]. destruct (recorded_at h key Rk) as (kt & Kt & Ek). cbv zeta.
      match goal with |- (if ?b then _ else _) = _ -> _ => destruct b eqn:B; [|discriminate] end. intros X. injection X as <-.
      apply andb_true_iff in B as [B Mx]. apply andb_true_iff in B as [B Wr]. apply andb_true_iff in B as [B Ap]. apply andb_true_iff in B as [Ac Nd].
      apply acceptb_ok in Ac as [Fr Va]. split; [eexists; split; [reflexivity|]|split; [exact Fr|exact Va]]. split.
      + reflexivity.
      + exists kt. split; [exact Kt|]. intros ev Iev. cbn [vt_votes] in Iev. apply in_map_iff in Iev as (t & <- & It). exists (snd (fst t)).
        split; [|exists (snd t); rewrite Ek; reflexivity]. rewrite forallb_forall in Wr. specialize (Wr t It). rewrite forallb_forall in Wr.
        apply Forall_forall. intros s Is. apply N.ltb_lt, (Wr s Is).
      + cbn [vt_votes]. rewrite map_map. apply u32s_nodup_ok, Nd.
      + intros x [Ix [_ Tx]] Eq. unfold apartb in Ap. rewrite forallb_forall in Ap. specialize (Ap x Ix). rewrite Tx in Ap.
        cbn [vt_key any sv] in Eq. rewrite Eq in Ap. change (tt_eqb TVote TVote) with true in Ap. cbn [negb orb] in Ap. apply negb_true_iff in Ap.
        assert (bytes_eqb (firstn 10 (arr_l (key_of k))) (firstn 10 (arr_l (key_of k))) = true) by (apply bytes_eqb_eq; reflexivity). congruence.
      + intros Cf. destruct (el_mix_config el) as [cf|]; [|destruct (Cf eq_refl)]. apply andb_true_iff in Mx as [M1 M2]. split.
        * cbn [vt_votes]. rewrite map_map. apply u32s_eqb_ok in M1. cbn [entry_of ev_contest]. rewrite M1. apply Permutation_refl.
        * intros l Nl All. assert (length l <= length h) by (apply NoDup_incl_length; [exact Nl|intros x Ix; exact (proj1 (All x Ix))]).
          apply N.ltb_lt in M2. lia.
    Qed.
    Lemma close_end h y : step_of h Close = Some y ->
      (exists ve, s_tx y = XVotingEnd ve /\ ve_election ve = e /\ ve_id ve = slot0 e TVotingEnd)
      /\ (exists k, at_id h (slot0 e TEncryptionKey) (XEncryptionKey k)) /\ fresh h (s_id y) /\ validate true (ms_store (ms_from h)) y = Ok tt.
    Proof.
      cbn [step_of]. destruct (recorded_key h) as [key|] eqn:Rk; [|discriminate]. destruct (recorded_at h key Rk) as (kt & Kt & _). cbv zeta.
      match goal with |- (if ?b then _ else _) = _ -> _ => destruct b eqn:B; [|discriminate] end. intros X. injection X as <-.
      apply acceptb_ok in B as [Fr Va]. split; [eexists; split; [reflexivity|]; split; reflexivity|]. split; [exists kt; exact Kt|]. split; [exact Fr|exact Va].
    Qed.
    Lemma step_honest h s y : honest e_encrypt true el T contests h -> step_of h s = Some y -> honest e_encrypt true el T contests (h ++ [y]).
    Proof.
      intros Ho. destruct s as [n w i j|k entries|].
      - cbn [step_of]. destruct (nth_error (firstn n h) i) as [x|] eqn:Ex; [|discriminate]. destruct (arr_eqb _ _) eqn:Ein; [|discriminate]. apply arr_eqb_eq in Ein.
        destruct (generate_transactions _ _ _ _ _) as [l|?|?] eqn:G; try discriminate. destruct (nth_error l j) as [z|] eqn:Ez; [|discriminate].
        destruct (freshb h (s_id z)) eqn:Fr; [|discriminate]. intros X. injection X as ->. apply freshb_ok in Fr.
        rewrite <- (firstn_skipn n h) in Ho, Fr |- *. 
        eapply ho_node; [exact Ho|apply (node_of w)|apply (nth_error_In _ _ Ex)|exact Ein|exact G|apply (nth_error_In _ _ Ez)|exact Fr].
      - intros X. apply cast_voter in X as ((v & Tv & Vo) & Fr & Va). exact (ho_vote _ _ _ _ _ h y v Ho Tv Vo Fr Va).
      - intros X. apply close_end in X as ((ve & Tv & V1 & V2) & Ke & Fr & Va). exact (ho_end _ _ _ _ _ h y ve Ho Tv V1 V2 Ke Fr Va).
    Qed.
    Lemma steps_honest l : forall h h', honest e_encrypt true el T contests h -> steps_from h l = Some h' -> honest e_encrypt true el T contests h'.
    Proof.
      induction l as [|s l IH]; intros h h' Ho; cbn [steps_from]; [intros X; injection X as <-; exact Ho|].
      destruct (step_of h s) as [y|] eqn:E; [|discriminate]. apply IH, (step_honest h s y Ho E).
    Qed.
    Lemma runs_honest l h : runs l = Some h -> honest e_encrypt true el T contests h.
    Proof.
      unfold runs. destruct (acceptb [] first) eqn:A; [|discriminate]. apply acceptb_ok in A as [Fr Va]. apply steps_honest.
      apply (ho_start _ _ _ _ _ [] first); [constructor|intros y []|reflexivity|exact Fr|exact Va].
    Qed.
  End Steps.

  (** everything is answered by the nodes [ws], as the ledger is *)
  Section Answered.
    Variables (el : ElectionTx) (T : people) (auth : byte) (h : list STx).
    Definition answeredb (sk : arr 32) (x : STx) : bool :=
      match generate_transactions true sk rnd0 (ms_store (ms_from h)) x with
      | Ok l => forallb (fun y => negb (freshb h (s_id y))) l
      | _ => false
      end.
    Lemma answeredb_ok sk x : In x h -> answeredb sk x = true -> answers true h sk x.
    Proof.
      unfold answeredb. intros Ix A. destruct (generate_transactions _ _ _ _ _) as [l|?|?] eqn:G; try discriminate A.
      exists h, [], rnd0, l. rewrite app_nil_r. split; [reflexivity|]. split; [exact Ix|]. split; [exact G|]. intros y Iy.
      rewrite forallb_forall in A. specialize (A y Iy). apply negb_true_iff in A. unfold freshb in A. 
      destruct (occupied_dec h (s_id y)) as [O|O]; [exact O|exfalso]. assert (forallb (fun z => negb (id_eqb (s_id z) (s_id y))) h = true); [|congruence].
      apply forallb_forall. intros z Iz. apply negb_true_iff. destruct (id_eqb _ _) eqn:E; [|reflexivity]. apply id_eqb_eq in E. exfalso. apply O. exists z. auto.
    Qed.
    Definition keys_answeredb : bool :=
      forallb (fun x => match s_tx x with
                        | XElection _ | XCommitment _ | XShare _ => forallb (fun p : Trustee * arr 32 => answeredb (snd p) x) T
                        | XPublicKey _ => answeredb (key_of auth) x
                        | _ => true end) h.
    Definition quorumb (Q : people) : bool :=
      forallb (fun x => match s_tx x with
                        | XVotingEnd _ | XMix _ | XPartial _ => forallb (fun p : Trustee * arr 32 => answeredb (snd p) x) Q
                        | _ => true end) h.
  End Answered.
  Fixpoint all_sels_eqb (a b : list (list Selection)) : bool :=
    match a, b with [], [] => true | x :: a', y :: b' => sels_eqb x y && all_sels_eqb a' b' | _, _ => false end.

  (** three trustees, of whom two decrypt; two contests; no mixnet *)
  Definition TP : people := [tt3 x0a x01; tt3 x0b x02; tt3 x0c x03].
  Definition pkR (k : byte) : PublicKey := any (key_of k).
  (** an election lists its trustees as they travel: without the two numbers (C09) *)
  Definition bare (p : Trustee * arr 32) : Trustee := mk_trustee (tr_public_key (fst p)) (tr_index (fst p)) (u_of 8 0) x00.
  Definition elP : ElectionTx := mk_election e3 (pkR x01) (map bare T3) x02 [] x00 None [ballot1] [contest0] no_props.
  Definition no : list Selection := [sel (lit "n")].
  Definition yes : list Selection := [sel (lit "y"); sel (lit "m")].
  Definition stepsP : list step :=
    [Node 1 0 0 0; Node 1 2 0 0; Node 2 1 0 0; Node 4 1 3 0; Node 4 0 1 0; Node 5 2 2 0; Node 7 0 6 0; Node 7 1 4 0; Node 9 2 5 0; Node 10 3 8 0;
     Cast x20 [(n32 0, yes, 4); (n32 1, no, 9)]; Cast x21 [(n32 0, no, 2)]; Close;
     Node 14 0 13 2; Node 14 2 13 0; Node 14 2 13 2; Node 16 0 13 1; Node 14 2 13 1; Node 14 0 13 0; Node 20 1 15 0; Node 20 0 16 0; Node 21 0 18 0].
  Definition QP : people := [tt3 x0a x01; tt3 x0c x03].

  (** two trustees, one of whom mixes and decrypts; one contest *)
  Definition tt2 (b i : byte) : Trustee * arr 32 := (mk_trustee (any (key_of b)) i (u_of 8 2) x01, key_of b).
  Definition TM : people := [tt2 x0a x01; tt2 x0b x02].
  Definition elM : ElectionTx := mk_election e3 (pkR x01) (map bare TM) x01 [] x00 (Some mixcfg) [ballot1] [contest0] no_props.
  Definition stepsM : list step :=
    [Node 1 0 0 0; Node 2 1 0 0; Node 3 1 1 0; Node 3 0 2 0; Node 5 0 3 0; Node 5 1 4 0; Node 7 3 5 0;
     Cast x20 [(n32 0, yes, 4)]; Cast x21 [(n32 0, no, 2)]; Close; Node 11 0 10 0;
     Node 12 0 11 1; Node 12 0 11 0; Node 14 1 12 0; Node 14 0 13 0].
  Definition QM : people := [tt2 x0a x01].

  Definition endedb (el : ElectionTx) (h : list STx) : bool := existsb (fun x => id_eqb (s_id x) (slot0 (el_id el) TVotingEnd)) h.
  Definition castb (el : ElectionTx) (h : list STx) (evs : list EncryptedVote) (cast : list (list Selection * nat)) : bool :=
    match recorded_key el h with
    | Some key => rowsv_eqb (map (fun ev => map (fun x => sv x) (ev_selections ev)) evs)
                            (map (fun x => map (fun y => sv y) (fst (encrypt_vote e_encrypt key (fst x) (snd x)))) cast)
    | None => false
    end.
  (** everything can be sent (C09) *)
  Definition fits (x : STx) : bool := cwf (ser_stx x) && Nat.leb (cdepth (ser_stx x)) 127.
  Definition plainb (x : STx) : bool :=
    match s_tx x with XElection t => forallb (fun r => N.eqb (uv (tr_num r)) 0 && Byte.eqb (tr_threshold r) x00) (el_trustees t) | _ => true end.
  Lemma plainb_ok x : plainb x = true -> plain (s_tx x).
  Proof.
    unfold plainb, plain. destruct (s_tx x) as [t|t|t|t|t|t|t|t|t|t]; auto. intros H. apply Forall_forall. intros r Ir. rewrite forallb_forall in H.
    specialize (H r Ir). apply andb_true_iff in H as [A B]. apply N.eqb_eq in A. apply byte_eqb_eq in B. split; [exact A|exact B].
  Qed.
  Definition caseb (el : ElectionTx) (T Q : people) (contests : list u32) (l : list step) (n : nat)
    (casts : list (u32 * list (list Selection * nat))) (shown : list (u32 * list (list Selection))) (all : list (list Selection * nat)) : bool :=
    match runs el T contests x01 l with
    | Some h => Nat.eqb (length h) n && keys_answeredb T x01 h && quorumb h Q && endedb el h
                && forallb (fun c => castb el h (ballots el h (fst c)) (snd c) && forallb (fun x => forallb writableb (fst x)) (snd c)) casts
                && forallb (fun c => all_sels_eqb (map dc_vote (decryptions_of el h (fst c))) (snd c)) shown
                && castb el h (entries el h) all && forallb (fun x => forallb writableb (fst x)) all && forallb fits h && forallb (fun x => plainb x && arr_eqb (id_election (s_id x)) (id_election (el_id el))) h
    | None => false
    end.
  Lemma castb_ok el h evs cast k : castb el h evs cast = true -> forallb (fun x => forallb writableb (fst x)) cast = true ->
    history true h -> at_id h (slot0 (el_id el) TEncryptionKey) (XEncryptionKey k) ->
    Forall2 (encrypted e_encrypt (ek_key k)) evs (map fst cast).
  Proof.
    unfold castb. destruct (recorded_key el h) as [key|] eqn:Rk; [|discriminate]. intros B Wr Hh Ke.
    destruct (recorded_at el h key Rk) as (k' & (x & Ix & Ex & Tx) & <-). destruct Ke as (y & Iy & Ey & Ty).
    assert (x = y) by (apply (hist_unique true h x y Hh Ix Iy); rewrite Ex, Ey; reflexivity). subst y. rewrite Tx in Ty. injection Ty as ->.
    apply rowsv_eqb_eq in B. revert cast B Wr. induction evs as [|ev l IH]; intros [|[v n] cast]; cbn [map]; try discriminate; [constructor|].
    intros B Wr. injection B as B1 B2. cbn [forallb fst] in Wr. apply andb_true_iff in Wr as [W1 W2]. constructor; [|apply IH; assumption].
    split; [rewrite forallb_forall in W1; apply Forall_forall; intros s Is; apply N.ltb_lt, (W1 s Is)|]. exists n.
    cbn [fst snd] in B1 |- *. revert B1. generalize (fst (encrypt_vote e_encrypt (ek_key k) v n)). induction (ev_selections ev) as [|a la IHa]; intros [|b lb];
      cbn [map]; try discriminate; [reflexivity|]. intros X. injection X as X1 X2. f_equal; [apply sub_ext, X1|apply IHa, X2].
  Qed.
  Lemma all_sels_ok a : forall b, all_sels_eqb a b = true -> a = b.
  Proof.
    induction a as [|x a IH]; intros [|y b]; cbn [all_sels_eqb]; try discriminate; [reflexivity|]. intros H. apply andb_true_iff in H as [A B].
    apply sels_eqb_eq in A. f_equal; [exact A|apply IH, B].
  Qed.
  Lemma caseb_ok el T Q contests l n casts shown all : caseb el T Q contests l n casts shown all = true ->
    el_authority el = @ed_public ToyE (key_of x01) -> (forall p, In p T -> tr_public_key (fst p) <> el_authority el) ->
    incl Q T -> NoDup Q -> (u8v (el_threshold el) <= N.of_nat (length Q))%N ->
    (el_mix_config el <> None -> exists p, In p Q /\ tr_index (fst p) = x01) ->
    set_up el T contests ->
    exists h k, length h = n /\ honest e_encrypt true el T contests h
      /\ keys_answered true el T (key_of x01) h /\ ended el h /\ quorum true el T Q h
      /\ at_id h (slot0 (el_id el) TEncryptionKey) (XEncryptionKey k)
      /\ (forall c cast, In (c, cast) casts -> Forall2 (encrypted e_encrypt (ek_key k)) (ballots el h c) (map fst cast))
      /\ (forall c l, In (c, l) shown -> map dc_vote (decryptions_of el h c) = l)
      /\ Forall2 (encrypted e_encrypt (ek_key k)) (entries el h) (map fst all)
      /\ Forall (fun x => small 127 (ser_stx x) /\ plain (s_tx x) /\ inside el x) h.
  Proof.
    unfold caseb. destruct (runs el T contests x01 l) as [h|] eqn:E; [|discriminate]. intros B Au Ap I1 I2 I3 I4 SU.
    apply andb_true_iff in B as [B Pl]. apply andb_true_iff in B as [B Fi]. apply andb_true_iff in B as [B Wa]. apply andb_true_iff in B as [B Al].
    apply andb_true_iff in B as [B Sh]. apply andb_true_iff in B as [B Ca]. apply andb_true_iff in B as [B Ed]. apply andb_true_iff in B as [B Qu]. apply andb_true_iff in B as [Ln Ka]. apply Nat.eqb_eq in Ln.
    pose proof (runs_honest el T contests x01 Au Ap l h E) as Ho. pose proof (C70_history toy_scheme e_encrypt true el T contests (C70_laws el) SU h Ho) as Hh.
    assert (KA : keys_answered true el T (key_of x01) h); [|destruct (C72_key_recorded toy_scheme e_encrypt true el T contests (C70_laws el) SU h _ Ho KA) as (k & Ke & _);
      exists h, k; split; [exact Ln|]; split; [exact Ho|]; split; [exact KA|]; split; [|split; [|split; [exact Ke|split; [|split; [|split]]]]]].
    - unfold keys_answeredb in Ka. rewrite forallb_forall in Ka. split.
      + right. split; [symmetry; exact Au|]. intros p Ip Ek. exfalso. apply (Ap p Ip). rewrite Ek. symmetry. exact Au.
      + symmetry. exact Au.
      + intros x p Ix _ Ip. specialize (Ka x Ix). destruct (s_tx x) as [t|t|t|t|t|t|t|t|t|t]; try exact I;
          rewrite forallb_forall in Ka; exact (answeredb_ok h _ x Ix (Ka p Ip)).
      + intros x Ix _. specialize (Ka x Ix). destruct (s_tx x) as [t|t|t|t|t|t|t|t|t|t]; try exact I. exact (answeredb_ok h _ x Ix Ka).
    - unfold endedb in Ed. apply existsb_exists in Ed as (x & Ix & Ex). apply id_eqb_eq in Ex. exists x. auto.
    - unfold quorumb in Qu. rewrite forallb_forall in Qu. split; [exact I1|exact I2|exact I3|exact I4|].
      intros x p Ix _ Ip. specialize (Qu x Ix). destruct (s_tx x) as [t|t|t|t|t|t|t|t|t|t]; try exact I;
        rewrite forallb_forall in Qu; exact (answeredb_ok h _ x Ix (Qu p Ip)).
    - intros c cast Ic. rewrite forallb_forall in Ca. specialize (Ca _ Ic). apply andb_true_iff in Ca as [C1 C2]. exact (castb_ok el h _ cast k C1 C2 Hh Ke).
    - intros c w Ic. rewrite forallb_forall in Sh. apply all_sels_ok, (Sh _ Ic).
    - exact (castb_ok el h _ all k Al Wa Hh Ke).
    - apply Forall_forall. intros x Ix. rewrite forallb_forall in Fi, Pl.
      specialize (Fi x Ix). unfold fits in Fi. apply andb_true_iff in Fi as [F1 F2]. specialize (Pl x Ix). apply andb_true_iff in Pl as [P1 P2].
      split; [split; [exact F1|apply Nat.leb_le, F2]|]. split; [apply plainb_ok, P1|apply arr_eqb_eq, P2].
  Qed.
  Lemma set_upP : set_up elP TP [].
  Proof.
    split; try (intros p [<-|[<-|[<-|[]]]]; reflexivity).
    - apply perm_swap.
    - change (NoDup (map (fun k : byte => pkR k) [x0a; x0b; x0c])). apply FinFun.Injective_map_NoDup; [|apply nodupb_iff; reflexivity].
      intros a b E. apply (f_equal (fun k => hd x00 (arr_l (sv k)))) in E. exact E.
    - intros a p b q d E. destruct a as [|? [|? [|? [|]]]]; try discriminate E; injection E; clear E; intros E;
        destruct b as [|? [|? b]]; try discriminate E; injection E; intros; subst; try (exfalso; eapply app_cons_not_nil; eassumption); reflexivity.
    - destruct C51_ceremony as [A B D E F]. split.
      + change (NoDup [x01; x02; x03]). apply nodupb_iff. reflexivity.
      + intros p [<-|[<-|[<-|[]]]]; vm_compute; split; discriminate.
      + intros p [<-|[<-|[<-|[]]]]; reflexivity.
      + intros p [<-|[<-|[<-|[]]]]; reflexivity.
      + exact F.
    - left. reflexivity.
    - discriminate.
    - constructor.
  Qed.
  Lemma set_upM : set_up elM TM [n32 0].
  Proof.
    split; try (intros p [<-|[<-|[]]]; reflexivity).
    - apply Permutation_refl.
    - change (NoDup (map (fun k : byte => pkR k) [x0a; x0b])). apply FinFun.Injective_map_NoDup; [|apply nodupb_iff; reflexivity].
      intros a b E. apply (f_equal (fun k => hd x00 (arr_l (sv k)))) in E. exact E.
    - intros a p b q d E. destruct a as [|? [|? [|]]]; try discriminate E; injection E; clear E; intros E;
        destruct b as [|? [|? b]]; try discriminate E; injection E; intros; subst; try (exfalso; eapply app_cons_not_nil; eassumption); reflexivity.
    - split.
      + change (NoDup [x01; x02]). apply nodupb_iff. reflexivity.
      + intros p [<-|[<-|[]]]; vm_compute; split; discriminate.
      + intros p [<-|[<-|[]]]; reflexivity.
      + intros p [<-|[<-|[]]]; reflexivity.
      + vm_compute. split; discriminate.
    - right. reflexivity.
    - discriminate.
    - constructor; [intros []|constructor].
  Qed.
  Lemma runP_ok : caseb elP TP QP [] stepsP 23 [(n32 0, [(yes, 4); (no, 2)]); (n32 1, [(no, 9)])] [(n32 0, [yes; no]); (n32 1, [no])] [(yes, 4); (no, 9); (no, 2)] = true.
  Proof. vm_compute. reflexivity. Qed.
  Lemma runM_ok : caseb elM TM QM [n32 0] stepsM 16 [(n32 0, [(yes, 4); (no, 2)])] [(n32 0, [yes; no])] [(yes, 4); (no, 2)] = true.
  Proof. vm_compute. reflexivity. Qed.
  (** the hypotheses of all the theorems above hold together: in an election without mixnet, where the
      second trustee answers nothing after voting has ended, *)
  Example C73_plain_case : laws toy_scheme e_encrypt elP /\ set_up elP TP []
    /\ exists h k, length h = 23 /\ honest e_encrypt true elP TP [] h /\ keys_answered true elP TP (key_of x01) h /\ ended elP h
      /\ quorum true elP TP QP h /\ at_id h (slot0 (el_id elP) TEncryptionKey) (XEncryptionKey k)
      /\ Forall2 (encrypted e_encrypt (ek_key k)) (ballots elP h (n32 0)) [yes; no]
      /\ map dc_vote (decryptions_of elP h (n32 0)) = [yes; no] /\ map dc_vote (decryptions_of elP h (n32 1)) = [no]
      /\ Forall2 (encrypted e_encrypt (ek_key k)) (entries elP h) [yes; no; no] /\ Forall (fun x => small 127 (ser_stx x) /\ plain (s_tx x) /\ inside elP x) h.
  Proof.
    split; [apply C70_laws|]. split; [exact set_upP|].
    destruct (caseb_ok _ _ _ _ _ _ _ _ _ runP_ok) as (h & k & A & B & D & E & F & G & H & I & J & W).
    - reflexivity.
    - intros p [<-|[<-|[<-|[]]]] X; apply (f_equal (fun k => hd x00 (arr_l (sv k)))) in X; discriminate X.
    - intros p [<-|[<-|[]]]; [left; reflexivity|right; right; left; reflexivity].
    - apply (NoDup_map_inv (fun p => tr_index (fst p))). change (NoDup [x01; x03]). apply nodupb_iff. reflexivity.
    - vm_compute. discriminate.
    - intros X. destruct (X eq_refl).
    - exact set_upP.
    - exists h, k. split; [exact A|]. split; [exact B|]. split; [exact D|]. split; [exact E|]. split; [exact F|]. split; [exact G|].
      split; [exact (H _ _ (or_introl eq_refl))|]. split; [exact (I _ _ (or_introl eq_refl))|]. split; [exact (I _ _ (or_intror (or_introl eq_refl)))|]. split; [exact J|exact W].
  Qed.
  (** and in one with a mixnet, where one trustee mixes and decrypts *)
  Example C73_mix_case : laws toy_scheme e_encrypt elM /\ set_up elM TM [n32 0]
    /\ exists h k, length h = 16 /\ honest e_encrypt true elM TM [n32 0] h /\ keys_answered true elM TM (key_of x01) h /\ ended elM h
      /\ quorum true elM TM QM h /\ at_id h (slot0 (el_id elM) TEncryptionKey) (XEncryptionKey k)
      /\ Forall2 (encrypted e_encrypt (ek_key k)) (ballots elM h (n32 0)) [yes; no]
      /\ map dc_vote (decryptions_of elM h (n32 0)) = [yes; no]
      /\ Forall2 (encrypted e_encrypt (ek_key k)) (entries elM h) [yes; no] /\ Forall (fun x => small 127 (ser_stx x) /\ plain (s_tx x) /\ inside elM x) h.
  Proof.
    split; [apply C70_laws|]. split; [exact set_upM|].
    destruct (caseb_ok _ _ _ _ _ _ _ _ _ runM_ok) as (h & k & A & B & D & E & F & G & H & I & J & W).
    - reflexivity.
    - intros p [<-|[<-|[]]] X; apply (f_equal (fun k => hd x00 (arr_l (sv k)))) in X; discriminate X.
    - intros p [<-|[]]; left; reflexivity.
    - constructor; [intros []|constructor].
    - vm_compute. discriminate.
    - intros _. exists (tt2 x0a x01). split; [left; reflexivity|reflexivity].
    - exact set_upM.
    - exists h, k. split; [exact A|]. split; [exact B|]. split; [exact D|]. split; [exact E|]. split; [exact F|]. split; [exact G|].
      split; [exact (H _ _ (or_introl eq_refl))|]. split; [exact (I _ _ (or_introl eq_refl))|]. split; [exact J|exact W].
  Qed.
End Case.

Print Assumptions C70_answers_accepted.
Print Assumptions C70_history.
Print Assumptions C71_never_stopped.
Print Assumptions C71_never_stuck.
Print Assumptions C72_key_recorded.
Print Assumptions C73_published.
Print Assumptions C74_can_finish.
