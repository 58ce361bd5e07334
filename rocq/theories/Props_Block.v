(** * C93: stopping an election. *)
From Verif Require Import Base BaseFacts Utf8 Cbor Ident BuildId IdentFacts Crypto Types Serde Store SpecStore StoreFacts Validate ValidateFacts SpecHist HistFacts SpecValid ValidFacts ValidFacts2 ValidFacts3
  SpecMix MixFacts Encrypt Trustee Tasks SpecTasks SpecService SpecThreshold Lagrange ThresholdFacts SpecRun RunFacts SpecBlock Toy ToyT ToyE Scene Props_Threshold Props_Run.
From Coq Require Import Permutation ZifyBool ZifyNat ZifyN.
Open Scope list_scope.

Section Key.
  Context {C : Crypto}.
  Variables (dbg : bool) (el : ElectionTx).
  Notation e := (el_id el).
  Notation keys h := (listed (stored h) e TKeyGenPublicKey).

  Lemma election_is h i el' : history dbg h -> at_id h i (XElection el) -> at_id h i (XElection el') -> el' = el.
  Proof.
    intros Hh (x & I & E & T) (y & J & F & U). assert (x = y) by (apply (hist_unique dbg h); auto; congruence). subst y. rewrite T in U. injection U as ->. reflexivity.
  Qed.
  (** when the encryption key is recorded, the public keys stored in the range of the election are one for each trustee *)
  Theorem C93_one_each : forall p x q t, history dbg (p ++ x :: q) -> at_id (p ++ x :: q) e (XElection el) -> NoDup (map seat (el_trustees el)) ->
    s_tx x = XEncryptionKey t -> ek_election t = e ->
    exists pks, range_is (stored p) e TKeyGenPublicKey XPublicKey pks /\ Permutation (map seat_of pks) (map seat (el_trustees el)).
  Proof.
    intros p x q t Hh At N Tx Ee. pose proof (hist_at dbg p x q Hh) as (Hp & F & V). apply (validate_iff _ _ (stored_holds p)) in V as (_ & _ & V). rewrite Tx in V.
    destruct V as (el' & pks & At' & _ & R & Ln & All & _). rewrite Ee in At', R.
    assert (el' = el).
    { apply (election_is (p ++ x :: q) e el' Hh At). destruct At' as (y & I & Y). exists y. split; [|exact Y]. apply in_or_app. left. apply (hist_stored dbg p y Hp), I. }
    subst el'. exists pks. split; [exact R|]. apply Permutation_sym, NoDup_Permutation_bis; [exact N|rewrite !map_length; lia|].
    intros s I. apply in_map_iff in I as (tr & <- & It). destruct (All tr It) as (pk & Ip & A & B). apply in_map_iff. exists pk. split; [unfold seat_of, seat; congruence|exact Ip].
  Qed.
  Lemma range_tx h pks y : range_is (stored h) e TKeyGenPublicKey XPublicKey pks -> history dbg h -> In y h -> in_range e TKeyGenPublicKey y ->
    exists k, s_tx y = XPublicKey k /\ In k pks.
  Proof.
    intros R Hh I B. assert (J : In (s_tx y) (map s_tx (keys h))) by (apply in_map, listed_in; split; [apply (hist_stored dbg h y Hh), I|exact B]).
    rewrite R in J. apply in_map_iff in J as (k & E & K). exists k. auto.
  Qed.

  (** ** what keeps the encryption key away for ever *)
  (** a public key in the range of the election that is not from one of its trustees *)
  Theorem C93_stray_key : forall h l y k, history dbg (h ++ l) -> at_id (h ++ l) e (XElection el) -> NoDup (map seat (el_trustees el)) ->
    keyless e h -> In y h -> in_range e TKeyGenPublicKey y -> s_tx y = XPublicKey k -> ~ In (seat_of k) (map seat (el_trustees el)) ->
    keyless e (h ++ l).
  Proof.
    intros h l y k Hh At N Kl Iy Ry Ty Ns x t Ix Tx Ee. apply in_app_or in Ix as [Ix|Ix]; [exact (Kl x t Ix Tx Ee)|].
    apply in_split in Ix as (a & b & ->). rewrite app_assoc in Hh, At. destruct (C93_one_each _ _ _ _ Hh At N Tx Ee) as (pks & R & P).
    destruct (range_tx (h ++ a) pks y R (hist_prefix _ _ _ Hh)) as (k' & Tk & Ik); [apply in_or_app; auto|exact Ry|]. rewrite Ty in Tk. injection Tk as <-.
    apply Ns. apply (Permutation_in _ P), in_map, Ik.
  Qed.
  (** two public keys in the range that say that they are from one trustee *)
  Theorem C93_second_key : forall h l y z k k', history dbg (h ++ l) -> at_id (h ++ l) e (XElection el) -> NoDup (map seat (el_trustees el)) ->
    keyless e h -> In y h -> In z h -> y <> z -> in_range e TKeyGenPublicKey y -> in_range e TKeyGenPublicKey z ->
    s_tx y = XPublicKey k -> s_tx z = XPublicKey k' -> seat_of k = seat_of k' ->
    keyless e (h ++ l).
  Proof.
    intros h l y z k k' Hh At N Kl Iy Iz D Ry Rz Ty Tz Es x t Ix Tx Ee. apply in_app_or in Ix as [Ix|Ix]; [exact (Kl x t Ix Tx Ee)|].
    apply in_split in Ix as (a & b & ->). rewrite app_assoc in Hh, At. destruct (C93_one_each _ _ _ _ Hh At N Tx Ee) as (pks & R & P).
    pose proof (hist_prefix _ _ _ Hh) as Hp. apply D.
    assert (Nd : NoDup (map (fun w => match s_tx w with XPublicKey k => Some (seat_of k) | _ => None end) (keys (h ++ a)))).
    { assert (E : map (fun w => match s_tx w with XPublicKey k => Some (seat_of k) | _ => None end) (keys (h ++ a)) = map Some (map seat_of pks)).
      { rewrite map_map. unfold range_is in R. revert R. generalize (keys (h ++ a)). clear. intros ws. revert pks.
        induction ws as [|w ws IH]; intros [|q qs] R; try discriminate R; [reflexivity|]. cbn [map] in *. injection R as -> R. rewrite (IH qs R). reflexivity. }
      rewrite E. apply FinFun.Injective_map_NoDup; [intros ? ? X; injection X as ->; reflexivity|]. apply (Permutation_NoDup (Permutation_sym P)), N. }
    apply (nodup_map_eq _ _ _ _ Nd).
    - apply listed_in. split; [apply (hist_stored dbg _ _ Hp), in_or_app; auto|exact Ry].
    - apply listed_in. split; [apply (hist_stored dbg _ _ Hp), in_or_app; auto|exact Rz].
    - cbn beta. rewrite Ty, Tz, Es. reflexivity.
  Qed.
  (** a trustee that records no public key *)
  Theorem C93_silent_trustee : forall h tr, history dbg h -> at_id h e (XElection el) -> NoDup (map seat (el_trustees el)) ->
    In tr (el_trustees el) -> (forall y k, In y h -> s_tx y = XPublicKey k -> seat_of k <> seat tr) ->
    keyless e h.
  Proof.
    intros h tr Hh At N It Si x t Ix Tx Ee. apply in_split in Ix as (a & b & ->). destruct (C93_one_each _ _ _ _ Hh At N Tx Ee) as (pks & R & P).
    assert (J : In (seat tr) (map seat_of pks)) by (apply (Permutation_in _ (Permutation_sym P)), in_map, It). apply in_map_iff in J as (k & Ek & Ik).
    assert (J : In (XPublicKey k) (map s_tx (keys a))) by (rewrite R; apply in_map, Ik). apply in_map_iff in J as (y & Ty & Iy). apply listed_in in Iy as [Iy _].
    apply (hist_stored dbg _ _ (hist_prefix _ _ _ Hh)) in Iy. exact (Si y k (in_or_app _ _ _ (or_introl Iy)) Ty Ek).
  Qed.
  (** without an encryption key, votes are admitted by the key of another election only *)
  Theorem C93_no_votes : forall h, history dbg h -> keyless e h -> misled e h.
  Proof.
    intros h Hh Kl x v Ix Tx Ee. destruct (hist_accepted dbg h x Hh Ix) as (p & q & -> & Hp & _ & V). apply (validate_iff _ _ (stored_holds p)) in V as (_ & _ & V). rewrite Tx in V.
    destruct V as (el' & _ & _ & _ & (y & Iy & Ey) & _). rewrite Ee in Ey. apply (hist_stored dbg _ _ Hp) in Iy. pose proof (hist_typed dbg p y Hp Iy) as Ty. rewrite Ey in Ty.
    assert (Jy : In y (p ++ x :: q)) by (apply in_or_app; auto). unfold s_type in Ty. destruct (s_tx y) as [t|t|t|t|t|t|t|t|t|t] eqn:T; try discriminate Ty.
    exists y, t. split; [exact Jy|]. split; [exact Ey|]. split; [exact T|]. exact (Kl y t Jy T).
  Qed.
End Key.

Section Attack.
  Context {C : Crypto}.
  Definition own_tx (sk : ed_secret) (t : Tx) : STx := mk_stx t (ed_sign sk (tx_bytes t)).
  (** an election of one's own, with oneself as its only trustee *)
  Definition own_election (sk : ed_secret) (i : Identifier) : ElectionTx :=
    mk_election i (ed_public sk) [mk_trustee (ed_public sk) x01 (u_of 8 0) x00] x01 [] x00 None [] [] no_props.
  Lemma own_is sk t : ed_sign_verifies -> tx_public t = Some (ed_public sk) -> by_owner sk (own_tx sk t).
  Proof. intros S P. split; [exact P|]. apply S. Qed.
  Lemma own_accepted dbg h sk t : ed_sign_verifies -> history dbg h -> fresh h (tx_id t) -> id_type (tx_id t) = tx_type t -> tx_public t = Some (ed_public sk) ->
    ok_tx (stored h) dbg t -> history dbg (h ++ [own_tx sk t]).
  Proof.
    intros S Hh F Ty P O. constructor; [exact Hh|exact F|]. apply (validate_iff _ _ (stored_holds h)). split; [exact Ty|]. split; [|exact O].
    intros k K. cbn [own_tx s_tx] in K. rewrite P in K. injection K as <-. apply S.
  Qed.

  (** Anybody can stop any election whose encryption key is not recorded yet, for ever, with two transactions:
      an election of their own, and a public key of that election stored in the range of the attacked one. *)
  Theorem C93_stranger_stops : ed_sign_verifies -> forall dbg h el sk (mine : arr 15) (u : arr 16) (g : EGPublicKey) (pf : PubkeyProof),
    history dbg h -> at_id h (el_id el) (XElection el) -> NoDup (map seat (el_trustees el)) -> keyless (el_id el) h ->
    (forall tr, In tr (el_trustees el) -> tr_public_key tr <> ed_public sk) ->
    fresh h (mk_id mine TElection (arr_rep x00 16)) -> fresh h (mk_id (id_election (el_id el)) TKeyGenPublicKey u) ->
    exists x y, by_owner sk x /\ by_owner sk y /\ s_id x <> el_id el /\ named_election (s_tx y) <> Some (el_id el)
      /\ history dbg (h ++ [x; y])
      /\ forall l, history dbg ((h ++ [x; y]) ++ l) -> keyless (el_id el) ((h ++ [x; y]) ++ l) /\ misled (el_id el) ((h ++ [x; y]) ++ l).
  Proof.
    intros S dbg h el sk mine u g pf Hh At N Kl Ns Fe Fk. set (i := mk_id mine TElection (arr_rep x00 16)) in *.
    set (t1 := XElection (own_election sk i)). set (t2 := XPublicKey (mk_pubkey (mk_id (id_election (el_id el)) TKeyGenPublicKey u) i x01 (ed_public sk) g pf)).
    assert (Ne : i <> el_id el). { intros E. destruct At as (z & Iz & Ez & _). rewrite <- E in Ez. exact (Fe z Iz Ez). }
    assert (H1 : history dbg (h ++ [own_tx sk t1])).
    { apply own_accepted; [exact S|exact Hh|exact Fe|reflexivity|reflexivity|]. split; [reflexivity|]. split; vm_compute; discriminate. }
    assert (H2 : history dbg ((h ++ [own_tx sk t1]) ++ [own_tx sk t2])).
    { apply own_accepted; [exact S|exact H1| |reflexivity|reflexivity|].
      - intros z Iz. apply in_app_or in Iz as [Iz|[<-|[]]]; [exact (Fk z Iz)|intros X; apply (f_equal id_type) in X; discriminate X].
      - exists (own_election sk i). split.
        + exists (own_tx sk t1). split; [apply (hist_stored dbg _ _ H1), in_or_app; right; left; reflexivity|auto].
        + exists (mk_trustee (ed_public sk) x01 (u_of 8 0) x00). split; [left; reflexivity|auto]. }
    rewrite <- app_assoc in H2. cbn [app] in H2. exists (own_tx sk t1), (own_tx sk t2). split; [apply own_is; auto|]. split; [apply own_is; auto|].
    split; [exact Ne|]. split; [intros X; injection X as X; exact (Ne X)|]. split; [exact H2|]. intros l Hl.
    assert (K : keyless (el_id el) ((h ++ [own_tx sk t1; own_tx sk t2]) ++ l)).
    { eapply (C93_stray_key dbg el _ l (own_tx sk t2)); [exact Hl| |exact N| | | |reflexivity|].
      - destruct At as (z & Iz & Z). exists z. split; [rewrite <- app_assoc; apply in_or_app; left; exact Iz|exact Z].
      - intros z t Iz Tz. apply in_app_or in Iz as [Iz|[<-|[<-|[]]]]; [exact (Kl z t Iz Tz)|discriminate Tz..].
      - apply in_or_app. right. right. left. reflexivity.
      - split; reflexivity.
      - intros J. apply in_map_iff in J as (tr & E & J). injection E as _ E. exact (Ns tr J E). }
    split; [exact K|apply (C93_no_votes dbg), K; exact Hl].
  Qed.
  (** Anybody who sees an election before it is recorded can record another one in its place. *)
  Theorem C93_front_run : ed_sign_verifies -> forall dbg h x el sk, s_tx x = XElection el -> fresh h (s_id x) -> history dbg h ->
    validate dbg (ms_store (ms_from h)) x = Ok tt -> el_authority el <> ed_public sk ->
    exists y, by_owner sk y /\ s_id y = s_id x /\ history dbg (h ++ [y]) /\ forall l, history dbg ((h ++ [y]) ++ l) -> ~ In x ((h ++ [y]) ++ l).
  Proof.
    intros S dbg h x el sk Tx F Hh V Na. apply (validate_iff _ _ (stored_holds h)) in V as (_ & _ & V). rewrite Tx in V. destruct V as (Ei & _).
    assert (Ex : s_id x = el_id el) by (unfold s_id; rewrite Tx; reflexivity). set (t := XElection (own_election sk (el_id el))).
    exists (own_tx sk t). split; [apply own_is; auto|]. split; [symmetry; exact Ex|].
    split.
    - apply own_accepted; [exact S|exact Hh|rewrite Ex in F; exact F|cbn [t tx_id own_election el_id]; rewrite Ei; reflexivity|reflexivity|].
      split; [exact Ei|]. split; vm_compute; discriminate.
    - intros l Hl I. assert (E : own_tx sk t = x).
      { apply (hist_unique dbg _ _ _ Hl); [apply in_or_app; left; apply in_or_app; right; left; reflexivity|exact I|symmetry; exact Ex]. }
      apply (f_equal s_tx) in E. rewrite Tx in E. injection E as E. apply Na. rewrite <- E. reflexivity.
  Qed.
End Attack.

(** ** mixing *)
Section Mixing.
  Context {C : Crypto}.
  (** behind every mix there is one by each of the trustees with smaller numbers *)
  Theorem C93_mixers_in_order : forall dbg h m, history dbg h -> at_id h (mx_id m) (XMix m) ->
    forall j, (j < u8v (mx_index m))%N -> exists m', at_id h (mx_id m') (XMix m') /\ mx_election m' = mx_election m /\ mx_contest m' = mx_contest m
      /\ u8v (mx_index m') = j /\ u8v (mx_trustee m') = (j + 1)%N.
  Proof.
    intros dbg h m Hh At. destruct (mix_chain dbg h Hh m At) as (m0 & Ch). clear At. induction Ch as [m A P I T|m p pm m0 A P B Hi Ht E1 E2 E3 E4 Hc IH]; intros j L.
    - rewrite I in L. change (u8v x00) with 0%N in L. lia.
    - destruct (N.eq_dec j (u8v (mx_index pm))) as [->|D].
      + exists pm. assert (Tp : u8v (mx_trustee pm) = (u8v (mx_index pm) + 1)%N).
        { pose proof (u8v_lt (mx_index m)). inversion Hc as [? _ _ I T|? ? ? ? _ _ _ _ T _ _ _ _ _]; subst; [rewrite I, T; reflexivity|]. rewrite T. apply N.mod_small. lia. }
        assert (Ap : at_id h (mx_id pm) (XMix pm)) by (inversion Hc; assumption). split; [exact Ap|]. auto.
      + destruct (IH j ltac:(lia)) as (m' & A' & F1 & F2 & F3 & F4). exists m'. split; [exact A'|]. split; [congruence|]. split; [congruence|]. auto.
  Qed.
  (** so that if one trustee does not mix, none with a greater number does *)
  Corollary C93_silent_mixer : forall dbg h e i, history dbg h -> (forall y m, In y h -> s_tx y = XMix m -> mx_election m = e -> mx_trustee m <> i) ->
    (1 <= u8v i)%N -> forall y m, In y h -> s_tx y = XMix m -> mx_election m = e -> (u8v (mx_index m) + 1 < u8v i)%N.
  Proof.
    intros dbg h e i Hh Si Li y m Iy Ty Ee. assert (At : at_id h (mx_id m) (XMix m)) by (exists y; split; [exact Iy|]; unfold s_id; rewrite Ty; auto).
    destruct (N.lt_trichotomy (u8v (mx_index m) + 1) (u8v i)) as [L|[L|L]]; [exact L|exfalso..].
    - apply (Si y m Iy Ty Ee). apply u8v_inj. rewrite <- L. pose proof (u8v_lt i). destruct (mix_chain dbg h Hh m At) as (m0 & Ch).
      inversion Ch as [? _ _ I T|? ? ? ? _ _ _ _ T _ _ _ _ _]; subst; [rewrite I, T; reflexivity|]. rewrite T. apply N.mod_small. lia.
    - destruct (C93_mixers_in_order dbg h m Hh At (u8v i - 1)) as (m' & (z & Iz & _ & Tz) & E' & _ & _ & T'); [lia|].
      apply (Si z m' Iz Tz ltac:(congruence)). apply u8v_inj. rewrite T'. lia.
  Qed.
End Mixing.

(** ** a quorum is enough after the voting, everybody is needed before *)
Section Alone.
  Context {C : Crypto} {TC : TCrypto} {K : Fld} {M : Mdl} (S : threshold_scheme K M).
  Context {R : Type} (eg : EGPublicKey -> R -> bytes -> Ciphertext * R).
  Variables (dbg : bool) (el : ElectionTx) (T : people) (contests : list u32).
  Notation e := (el_id el).
  Notation honest := (honest eg dbg el T contests).
  Hypothesis L : laws S eg el.
  Hypothesis SU : set_up el T contests.
  Variable ns : list ed_secret.
  Hypothesis Nds : forall sk, In sk ns -> node el T sk.

  Lemma left_app h a b : left_to dbg ns h a -> left_to dbg ns (h ++ a) b -> left_to dbg ns h (a ++ b).
  Proof.
    intros A B. induction B as [|b h1 h2 sk r x l y B IH E Is Ix G Iy]; [rewrite app_nil_r; exact A|]. rewrite app_assoc.
    apply (lt_answer _ _ _ _ h1 h2 sk r x l y IH); try assumption. rewrite app_assoc. exact E.
  Qed.
  Lemma one_alone (r : Rnd) h x sk : honest h -> In x h -> inside el x -> In sk ns ->
    exists h', honest (h ++ h') /\ left_to dbg ns h h' /\ answers dbg (h ++ h') sk x /\ forall y, In y h' -> rank x < rank y.
  Proof.
    intros Ho Ix Ins Is. pose proof (Nds sk Is) as Nd. destruct (C71_never_stopped S eg dbg el T contests L SU h x sk r Ho Ix Ins Nd) as (l & G).
    assert (Rk : forall y, In y l -> rank x < rank y).
    { intros y. apply (rank_answer S (la_dh _ _ _ L) (la_gcm _ _ _ L) (la_scalar _ _ _ L) eg dbg el T contests SU h sk r x l y Ho (C70_history S eg dbg el T contests L SU h Ho) Nd Ix Ins G). }
    assert (Main : forall l0, incl l0 l -> exists h', honest (h ++ h') /\ left_to dbg ns h h' /\ (forall y, In y l0 -> occupied (h ++ h') (s_id y)) /\ incl h' l).
    { induction l0 as [|y l0 IH]; intros Inc; [exists []; rewrite app_nil_r; split; [exact Ho|split; [constructor|split; [intros y []|intros y []]]]|].
      destruct IH as (h' & Ho' & Lt & Oc & Il); [intros z Iz; apply Inc; right; exact Iz|].
      destruct (occupied_dec (h ++ h') (s_id y)) as [O|O].
      - exists h'. split; [exact Ho'|]. split; [exact Lt|]. split; [intros z [<-|Iz]; auto|exact Il].
      - exists (h' ++ [y]). split; [|split; [|split]].
        + rewrite app_assoc. apply (ho_node _ _ _ _ _ h h' sk r x l y Ho' Nd Ix Ins G (Inc y (or_introl eq_refl))). intros w Iw Ew. apply O. exists w. auto.
        + apply (lt_answer _ _ _ _ h h' sk r x l y Lt eq_refl Is Ix G), Inc. left. reflexivity.
        + intros z Iz. rewrite app_assoc. destruct Iz as [<-|Iz]; [exists y; split; [apply in_or_app; right; left; reflexivity|reflexivity]|apply occupied_mono, Oc, Iz].
        + intros z Iz. apply in_app_or in Iz as [Iz|[<-|[]]]; [apply Il, Iz|apply Inc; left; reflexivity]. }
    destruct (Main l (incl_refl _)) as (h' & Ho' & Lt & Oc & Il). exists h'. split; [exact Ho'|]. split; [exact Lt|]. split; [|intros y Iy; apply Rk, Il, Iy].
    exists h, h', r, l. auto.
  Qed.
  Lemma pairs_alone (r : Rnd) k : forall ps h, honest h -> (forall x sk, In (x, sk) ps -> In x h /\ inside el x /\ In sk ns /\ rank x = k) ->
    exists h', honest (h ++ h') /\ left_to dbg ns h h' /\ (forall x sk, In (x, sk) ps -> answers dbg (h ++ h') sk x) /\ forall y, In y h' -> k < rank y.
  Proof.
    induction ps as [|[x sk] ps IH]; intros h Ho All; [exists []; rewrite app_nil_r; split; [exact Ho|split; [constructor|split; [intros x sk []|intros y []]]]|].
    destruct (All x sk (or_introl eq_refl)) as (Ix & Ins & Is & Rx). destruct (one_alone r h x sk Ho Ix Ins Is) as (h1 & Ho1 & Lt1 & An1 & R1).
    destruct (IH (h ++ h1) Ho1) as (h2 & Ho2 & Lt2 & An2 & R2).
    { intros x' sk' I. destruct (All x' sk' (or_intror I)) as (I1 & I2 & I3 & I4). split; [apply in_or_app; left; exact I1|auto]. }
    exists (h1 ++ h2). split; [rewrite app_assoc; exact Ho2|]. split; [exact (left_app _ _ _ Lt1 Lt2)|]. rewrite app_assoc. split.
    - intros x' sk' [E|I]; [injection E as <- <-; apply answers_mono, An1|apply An2, I].
    - intros y Iy. apply in_app_or in Iy as [Iy|Iy]; [rewrite <- Rx; apply R1, Iy|apply R2, Iy].
  Qed.
  Lemma stage_alone (r : Rnd) k h : honest h -> (forall x sk, In x h -> inside el x -> In sk ns -> rank x < k -> answers dbg h sk x) ->
    exists h', honest (h ++ h') /\ left_to dbg ns h h' /\ forall x sk, In x (h ++ h') -> inside el x -> In sk ns -> rank x < Datatypes.S k -> answers dbg (h ++ h') sk x.
  Proof.
    intros Ho Up. set (f := fun x => (arr_eqb (id_election (s_id x)) (id_election e) && Nat.eqb (rank x) k)%bool).
    assert (Fs : forall x, f x = true <-> inside el x /\ rank x = k) by (intros x; unfold f; rewrite andb_true_iff, arr_eqb_eq, Nat.eqb_eq; reflexivity).
    destruct (pairs_alone r k (list_prod (filter f h) ns) h Ho) as (h' & Ho' & Lt & An & Rk).
    { intros x sk I. apply in_prod_iff in I as [Ix Is]. apply filter_In in Ix as [Ix Fx]. apply Fs in Fx as [Ins Rx]. auto. }
    exists h'. split; [exact Ho'|]. split; [exact Lt|]. intros x sk Ix Ins Is Rx. apply in_app_or in Ix as [Ix|Ix].
    - destruct (Nat.eq_dec (rank x) k) as [Eq|Ne].
      + apply An, in_prod_iff. split; [apply filter_In; split; [exact Ix|apply Fs; auto]|exact Is].
      + apply answers_mono, Up; try assumption. lia.
    - specialize (Rk x Ix). lia.
  Qed.
  (** the nodes [ns] alone reach a ledger on which they have answered everything *)
  Lemma all_alone (r : Rnd) h : honest h ->
    exists h', honest (h ++ h') /\ left_to dbg ns h h' /\ forall x sk, In x (h ++ h') -> inside el x -> In sk ns -> answers dbg (h ++ h') sk x.
  Proof.
    intros Ho. assert (Main : forall k, exists h', honest (h ++ h') /\ left_to dbg ns h h' /\
      forall x sk, In x (h ++ h') -> inside el x -> In sk ns -> rank x < k -> answers dbg (h ++ h') sk x).
    { induction k as [|k (h' & Ho' & Lt & Up)]; [exists []; rewrite app_nil_r; split; [exact Ho|split; [constructor|intros x sk _ _ _ Lt; lia]]|].
      destruct (stage_alone r k (h ++ h') Ho' Up) as (h2 & Ho2 & Lt2 & Up2). exists (h' ++ h2). rewrite app_assoc. split; [exact Ho2|]. split; [exact (left_app _ _ _ Lt Lt2)|exact Up2]. }
    destruct (Main 8) as (h' & Ho' & Lt & Up). exists h'. split; [exact Ho'|]. split; [exact Lt|]. intros x sk Ix Ins Is. apply Up; try assumption. unfold rank. destruct (s_tx x); lia.
  Qed.
End Alone.

Section Enough.
  Context {C : Crypto} {TC : TCrypto} {K : Fld} {M : Mdl} (S : threshold_scheme K M).
  Context {R : Type} (eg : EGPublicKey -> R -> bytes -> Ciphertext * R).
  (** After the end of the voting, any quorum of the trustees publishes all votes without the others
      (with a mixnet, if the trustee who mixes is one of them). *)
  Theorem C93_quorum_partial : forall dbg el T contests, laws S eg el -> set_up el T contests ->
    forall (r : Rnd) h k Q, honest eg dbg el T contests h -> ended el h -> at_id h (slot0 (el_id el) TEncryptionKey) (XEncryptionKey k) ->
    incl Q T -> NoDup Q -> (u8v (el_threshold el) <= N.of_nat (List.length Q))%N -> (el_mix_config el <> None -> exists p, In p Q /\ tr_index (fst p) = x01) ->
    exists h', left_to dbg (map snd Q) h h' /\ honest eg dbg el T contests (h ++ h')
      /\ forall c cast, Forall2 (encrypted eg (ek_key k)) (ballots el h c) cast -> Permutation (map dc_vote (decryptions_of el (h ++ h') c)) cast.
  Proof.
    intros dbg el T contests L SU r h k Q Ho Ed Ke I1 I2 I3 I4.
    assert (Nds : forall sk, In sk (map snd Q) -> node el T sk) by (intros sk I; apply in_map_iff in I as (p & <- & I); left; exists p; auto).
    destruct (all_alone S eg dbg el T contests L SU (map snd Q) Nds r h Ho) as (h' & Ho' & Lt & An).
    exists h'. split; [exact Lt|]. split; [exact Ho'|]. intros c cast Ca. assert (Qu : quorum dbg el T Q (h ++ h')).
    { split; try assumption. intros x p Ix Ins Ip. assert (A : answers dbg (h ++ h') (snd p) x) by (apply An; [exact Ix|exact Ins|apply in_map, Ip]).
      destruct (s_tx x); (exact A || exact I). }
    assert (Ed' : ended el (h ++ h')) by (apply occupied_mono, Ed).
    assert (Ke' : at_id (h ++ h') (slot0 (el_id el) TEncryptionKey) (XEncryptionKey k)) by (destruct Ke as (x & Ix & Ex); exists x; split; [apply in_or_app; left; exact Ix|exact Ex]).
    apply (proj2 (C73_published S eg dbg el T contests L SU (h ++ h') Q k c Ho' Ed' Qu Ke')). rewrite (ballots_frozen S eg dbg el T contests L SU h h' c Ho' Ed). exact Ca.
  Qed.
  (** Before it, all trustees and the authority together make the key, whenever they start. *)
  Theorem C93_all_partial : forall dbg el T contests sk, laws S eg el -> set_up el T contests -> node el T sk -> ed_public sk = el_authority el ->
    forall (r : Rnd) h, honest eg dbg el T contests h ->
    exists h' k, left_to dbg (sk :: map snd T) h h' /\ honest eg dbg el T contests (h ++ h') /\ at_id (h ++ h') (slot0 (el_id el) TEncryptionKey) (XEncryptionKey k).
  Proof.
    intros dbg el T contests sk L SU Nd Au r h Ho. assert (Nds : forall s, In s (sk :: map snd T) -> node el T s).
    { intros s [<-|I]; [exact Nd|]. apply in_map_iff in I as (p & <- & I). left. exists p. auto. }
    destruct (all_alone S eg dbg el T contests L SU (sk :: map snd T) Nds r h Ho) as (h' & Ho' & Lt & An).
    destruct (C72_key_recorded S eg dbg el T contests L SU (h ++ h') sk Ho') as (k & Ke & _).
    { split; [exact Nd|exact Au| |].
      - intros x p Ix Ins Ip. assert (A : answers dbg (h ++ h') (snd p) x) by (apply An; [exact Ix|exact Ins|right; apply in_map, Ip]). destruct (s_tx x); (exact A || exact I).
      - intros x Ix Ins. assert (A : answers dbg (h ++ h') sk x) by (apply An; [exact Ix|exact Ins|left; reflexivity]). destruct (s_tx x); (exact A || exact I). }
    exists h', k. auto.
  Qed.
End Enough.

Section Cases.
  #[local] Existing Instance ToyE.
  #[local] Existing Instance ToyET.
  #[local] Existing Instance Fq.
  #[local] Existing Instance Gq.
  Definition stranger : arr 32 := key_of x77.
  Definition firstP : STx := first elP x01.
  Lemma first_ok : acceptb [] firstP = true.
  Proof. vm_compute. reflexivity. Qed.
  Lemma apartP p : In p TP -> tr_public_key (fst p) <> el_authority elP.
  Proof. intros Ip E. apply (f_equal (fun k => hd x00 (arr_l (sv k)))) in E. destruct Ip as [<-|[<-|[<-|[]]]]; discriminate E. Qed.
  Lemma honest_firstP : honest e_encrypt true elP TP [] [firstP].
  Proof. exact (runs_honest elP TP [] x01 eq_refl apartP [] [firstP] ltac:(unfold runs; fold firstP; rewrite first_ok; reflexivity)). Qed.
  (** An election that its trustees and its authority could set up is stopped for ever by two transactions of a stranger. *)
  Theorem C93_stopped_refuted : exists el T contests h sk x y,
    laws toy_scheme e_encrypt el /\ set_up el T contests /\ honest e_encrypt true el T contests h
    /\ (exists h' k, left_to true (key_of x01 :: map snd T) h h' /\ honest e_encrypt true el T contests (h ++ h')
          /\ at_id (h ++ h') (slot0 (el_id el) TEncryptionKey) (XEncryptionKey k))
    /\ ed_public sk <> el_authority el /\ (forall tr, In tr (el_trustees el) -> tr_public_key tr <> ed_public sk)
    /\ by_owner sk x /\ by_owner sk y /\ history true (h ++ [x; y])
    /\ forall l, history true ((h ++ [x; y]) ++ l) -> keyless (el_id el) ((h ++ [x; y]) ++ l) /\ misled (el_id el) ((h ++ [x; y]) ++ l).
  Proof.
    exists elP, TP, [], [firstP], stranger. pose proof honest_firstP as Ho. pose proof (C70_history toy_scheme e_encrypt true elP TP [] (C70_laws elP) set_upP _ Ho) as Hh.
    assert (Ns : forall tr, In tr (el_trustees elP) -> tr_public_key tr <> ed_public stranger).
    { intros tr It E. apply (f_equal (fun k => hd x00 (arr_l (sv k)))) in E. destruct It as [<-|[<-|[<-|[]]]]; discriminate E. }
    destruct (C93_stranger_stops e_sign_verifies true [firstP] elP stranger (arr_rep x99 15) (arr_rep x77 16) (any CNull) (any CNull) Hh) as (x & y & A & B & _ & _ & D & E).
    - exists firstP. split; [left; reflexivity|auto].
    - apply (NoDup_map_inv fst). apply nodupb_iff. reflexivity.
    - intros z t [<-|[]] Tz. discriminate Tz.
    - exact Ns.
    - intros z [<-|[]] Ez. apply (f_equal (fun i => hd x00 (arr_l (id_election i)))) in Ez. discriminate Ez.
    - intros z [<-|[]] Ez. apply (f_equal id_type) in Ez. discriminate Ez.
    - exists x, y. split; [apply C70_laws|]. split; [exact set_upP|]. split; [exact Ho|]. split; [|split; [|split; [exact Ns|auto]]].
      + apply (C93_all_partial toy_scheme e_encrypt true elP TP [] (key_of x01) (C70_laws elP) set_upP); [|reflexivity|exact rnd0|exact Ho].
        right. split; [reflexivity|]. intros p Ip Ek. exfalso. exact (apartP p Ip Ek).
      + intros X. apply (f_equal (fun k => hd x00 (arr_l (sv k)))) in X. discriminate X.
  Qed.
  (** the scene of C73 when voting has just ended: two of three trustees go on alone *)
  Lemma closed_ok : match runs elP TP [] x01 (firstn 13 stepsP) with
    | Some h => Nat.eqb (length h) 14 && endedb elP h && match recorded_key elP h with Some _ => true | None => false end
                && Nat.eqb (length (ballots elP h (n32 0))) 2 && Nat.eqb (length (decryptions_of elP h (n32 0))) 0
    | None => false end = true.
  Proof. vm_compute. reflexivity. Qed.
  Example C93_quorum_case : laws toy_scheme e_encrypt elP /\ set_up elP TP [] /\ incl QP TP /\ NoDup QP /\ length QP = 2 /\ length TP = 3
    /\ (u8v (el_threshold elP) <= N.of_nat (length QP))%N
    /\ exists h k, honest e_encrypt true elP TP [] h /\ ended elP h /\ at_id h (slot0 (el_id elP) TEncryptionKey) (XEncryptionKey k)
      /\ length (ballots elP h (n32 0)) = 2 /\ decryptions_of elP h (n32 0) = [].
  Proof.
    pose proof closed_ok as B. destruct (runs elP TP [] x01 (firstn 13 stepsP)) as [h|] eqn:E; [|discriminate B].
    pose proof (runs_honest elP TP [] x01 eq_refl apartP _ h E) as Ho. repeat (apply andb_true_iff in B as [B ?]).
    split; [apply C70_laws|]. split; [exact set_upP|]. split; [intros p [<-|[<-|[]]]; [left|right; right; left]; reflexivity|].
    split; [apply (NoDup_map_inv (fun p => tr_index (fst p))), nodupb_iff; reflexivity|]. split; [reflexivity|]. split; [reflexivity|]. split; [vm_compute; discriminate|].
    destruct (recorded_key elP h) as [key|] eqn:Rk; [|discriminate]. destruct (recorded_at elP h key Rk) as (k & Ke & _). exists h, k. split; [exact Ho|]. split.
    - unfold endedb in *. match goal with H : existsb _ h = true |- _ => apply existsb_exists in H as (x & Ix & Ex) end. apply id_eqb_eq in Ex. exists x. auto.
    - split; [exact Ke|]. split; [apply Nat.eqb_eq; assumption|]. apply length_zero_iff_nil, Nat.eqb_eq. assumption.
  Qed.
End Cases.

Section Scenes.
  #[local] Existing Instance Toy.
  Definition elN : ElectionTx := election None.
  Definition seat_nodup : NoDup (map seat (el_trustees elN)).
  Proof. apply (NoDup_map_inv fst). apply nodupb_iff. reflexivity. Qed.
  (** the first trustee records a second public key, at an identifier of its own making *)
  Definition again : STx := sgn x0a (XPublicKey (mk_pubkey (mk_id (id_election EID) TKeyGenPublicKey (arr_rep xee 16)) EID x01 (pk_of x0a) egk (proof_of x01))).
  Example C93_second_key_case : history true (firstn 7 (setup None) ++ [again]) /\ at_id (firstn 7 (setup None) ++ [again]) (el_id elN) (XElection elN)
    /\ NoDup (map seat (el_trustees elN)) /\ keyless (el_id elN) (firstn 7 (setup None) ++ [again])
    /\ is_ok (validate true (ms_store (ms_from (firstn 7 (setup None)))) enckey) = true
    /\ is_ok (validate true (ms_store (ms_from (firstn 7 (setup None) ++ [again]))) enckey) = false.
  Proof.
    split; [apply run_history; vm_compute; reflexivity|]. split; [eexists; split; [left; reflexivity|split; reflexivity]|]. split; [exact seat_nodup|].
    split; [|split; vm_compute; reflexivity]. intros x t I T. cbn [setup firstn app In] in I. repeat (destruct I as [<-|I]; [discriminate T|]). destruct I.
  Qed.
  Example C93_silent_case : history true (firstn 6 (setup None) ++ [votingend]) /\ at_id (firstn 6 (setup None) ++ [votingend]) (el_id elN) (XElection elN)
    /\ In (Scene.T x0b x02) (el_trustees elN) /\ forall y k, In y (firstn 6 (setup None) ++ [votingend]) -> s_tx y = XPublicKey k -> seat_of k <> seat (Scene.T x0b x02).
  Proof.
    split; [apply run_history; vm_compute; reflexivity|]. split; [eexists; split; [left; reflexivity|split; reflexivity]|]. split; [right; left; reflexivity|].
    intros y k I T E. cbn [setup firstn app In] in I. repeat (destruct I as [<-|I]; [try discriminate T; injection T as <-; discriminate E|]). destruct I.
  Qed.
  Example C93_front_case : let x := sgn x01 (XElection elN) in fresh [] (s_id x) /\ validate true (ms_store (ms_from [])) x = Ok tt /\ el_authority elN <> ed_public (key_of x77).
  Proof.
    split; [intros y []|]. split; [vm_compute; reflexivity|]. intros X. apply (f_equal (fun k => hd x00 (arr_l (sv k)))) in X. discriminate X.
  Qed.
  Example C93_mixers_case : let h := setup (Some mixcfg) ++ voting ++ [votingend; mix1; mix2] in history true h
    /\ at_id h (s_id mix2) (s_tx mix2) /\ s_type mix2 = TMix /\ match s_tx mix2 with XMix m => u8v (mx_index m) = 1%N | _ => False end.
  Proof.
    split; [apply run_history; vm_compute; reflexivity|]. split; [|split; reflexivity]. exists mix2. split; [|auto]. apply in_or_app. right. apply in_or_app. right. right. right. left. reflexivity.
  Qed.
End Scenes.

Print Assumptions C93_one_each.
Print Assumptions C93_stray_key.
Print Assumptions C93_second_key.
Print Assumptions C93_silent_trustee.
Print Assumptions C93_no_votes.
Print Assumptions C93_stranger_stops.
Print Assumptions C93_front_run.
Print Assumptions C93_mixers_in_order.
Print Assumptions C93_silent_mixer.
Print Assumptions C93_quorum_partial.
Print Assumptions C93_all_partial.
Print Assumptions C93_stopped_refuted.
